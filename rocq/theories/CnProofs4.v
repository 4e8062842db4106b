(* The file of trusted authorities, and programs whose files go astray. *)
From Verif Require Import Base CnModel CnProofs CnProofs2 CnProofs3.
From Coq Require Import Lia.
Open Scope Z_scope.
Open Scope list_scope.

Definition caless (o : op) : Prop := match o with UseCa _ | CaFile | Again => False | _ => True end.

Section P.
Variable PM MH : nat.
Variable e : env.

Lemma host_ca s : ca (snd (hostname MH e s)) = ca s.
Proof. unfold hostname. destruct (host s); auto. Qed.
Lemma setup_ca s : ca (names_setup PM MH e s) = ca s.
Proof. unfold names_setup. pose proof (host_ca s) as K. destruct (hostname MH e s) as [n s1]. cbn [snd] in K. destruct (cert s1); auto. Qed.
Lemma cert_ca s : ca (snd (cert_file PM MH e s)) = ca s.
Proof. unfold cert_file. cbn [snd]. destruct (cert s); auto using setup_ca. Qed.
Lemma pkey_ca s : ca (snd (pkey_file PM MH e s)) = ca s.
Proof. unfold pkey_file. cbn [snd]. destruct (pkey s); auto using setup_ca. Qed.
Lemma default_ca p s : ca (snd (default_file PM MH e p s)) = ca s.
Proof.
  unfold default_file. pose proof (host_ca s) as K. destruct (hostname MH e s) as [n s1]. cbn [snd] in K.
  destruct p, (dir s1); cbn [snd]; auto; destruct (zero _); auto.
Qed.
Lemma write_ca p c s : ca (snd (write e p c s)) = ca s.
Proof. unfold write. destruct (wr_ e (tick s)); auto. Qed.
Lemma touch_ca p s : ca (touch_file e p s) = ca s.
Proof. unfold touch_file. destruct (wr_ e (tick s)); [|destruct (look p (files s))..]; auto. Qed.
Lemma export_ca s : ca (snd (export PM MH e s)) = ca s.
Proof.
  unfold export. set (s0 := mkSt _ _ _ _ _ _ _ _ _ _ _). destruct (gen e (tick s)); [|reflexivity].
  pose proof (host_ca s0) as H. destruct (hostname MH e s0) as [n s1]. cbn [snd] in H.
  pose proof (pkey_ca s1) as H1. destruct (pkey_file PM MH e s1) as [pk s2]. cbn [snd] in H1.
  pose proof (write_ca pk (Key (nkey s)) s2) as H2. destruct (write e pk (Key (nkey s)) s2) as [a s3]. cbn [snd] in H2.
  pose proof (cert_ca s3) as H3. destruct (cert_file PM MH e s3) as [ct s4]. cbn [snd] in H3.
  pose proof (write_ca ct (Cert (nkey s)) s4) as H4. destruct (write e ct (Cert (nkey s)) s4) as [b s5]. cbn [snd] in H4.
  cbn [snd]. rewrite H4, H3, H2, H1, H. reflexivity.
Qed.

Lemma caless_step dflt o s : caless o -> ca (step PM MH e dflt o s) = ca s.
Proof.
  destruct o; cbn [caless step]; intros Q; try contradiction.
  - apply host_ca.
  - apply cert_ca.
  - unfold csr_file. cbn [snd]. destruct (csr s); auto using setup_ca.
  - apply pkey_ca.
  - unfold cert_path. cbn [snd]. destruct (dir s); auto.
  - unfold use_cert. destruct p as [p|]; [apply default_ca|].
    pose proof (default_ca None s) as K. destruct (default_file PM MH e None s) as [t s1]. cbn [snd] in K.
    destruct (exists_ t s1); auto. pose proof (export_ca s1) as L. destruct (export PM MH e s1) as [ok s2]. cbn [snd] in L.
    destruct ok; rewrite ?touch_ca; congruence.
  - unfold use_client. pose proof (host_ca s) as K. destruct (hostname MH e s) as [n s1]. cbn [snd] in K.
    set (s2 := mkSt _ _ _ _ _ _ _ true _ _ _). assert (K2 : ca s2 = ca s) by exact K.
    destruct (exists_ (touch s2) s2); auto.
    pose proof (default_ca (Some here) s2) as K3. destruct (default_file PM MH e (Some here) s2) as [t s3]. cbn [snd] in K3.
    pose proof (export_ca s3) as L. destruct (export PM MH e s3) as [ok s4]. cbn [snd] in L.
    destruct ok; rewrite ?touch_ca; congruence.
  - apply export_ca.
Qed.

Lemma ca_step dflt o s : o <> Again -> ca s <> [] -> ca (step PM MH e dflt o s) = ca s.
Proof.
  intros No Nc. destruct o; try (apply caless_step; exact I); try congruence; cbn [step].
  - unfold use_ca. destruct (ca s) eqn:E; congruence.
  - unfold ca_file. cbn [snd]. destruct (ca s) eqn:E; congruence.
Qed.

Lemma ca_run dflt os : forall s, ~ In Again os -> ca s <> [] -> ca (run PM MH e dflt os s) = ca s.
Proof.
  induction os as [|o r IH]; intros s No Nc; [reflexivity|]. cbn [run].
  assert (K : ca (step PM MH e dflt o s) = ca s) by (apply ca_step; auto; intros ->; apply No; left; auto).
  rewrite IH; [exact K| |congruence]. intros Q. apply No. right; auto.
Qed.

Lemma caless_run dflt os : forall s, Forall caless os -> ca (run PM MH e dflt os s) = ca s.
Proof.
  induction os as [|o r IH]; intros s F; [reflexivity|]. inversion F; subst. cbn [run]. rewrite IH by auto. apply caless_step; auto.
Qed.
End P.

Lemma c169_ca PM MH e dflt pre p post fs t k :
  Forall caless pre -> ~ In Again post ->
  let d := match p with Some x => x | None => dflt end in
  d <> [] -> (length d < PM + MH + 4)%nat ->
  fst (ca_file PM MH dflt (run PM MH e dflt (pre ++ UseCa p :: post) (fresh fs t k))) = d.
Proof.
  intros F Na d Nd Ld. rewrite run_app. cbn [run step]. set (s1 := run PM MH e dflt pre (fresh fs t k)).
  assert (C1 : ca s1 = []) by (unfold s1; rewrite caless_run; auto).
  assert (C2 : ca (use_ca PM MH dflt p s1) = d).
  { unfold use_ca. rewrite C1. cbn [ca]. apply put_id. exact Ld. }
  assert (C3 : ca (run PM MH e dflt post (use_ca PM MH dflt p s1)) = d).
  { rewrite ca_run; [exact C2|exact Na|congruence]. }
  unfold ca_file. cbn [fst]. rewrite C3. destruct d eqn:E; [contradiction|exact C3].
Qed.

Definition h1 : text := [104].
Definition good : env := mkEnv (fun _ => Some h1) (fun _ => true) (fun _ => WDone).
(* the first write succeeds, the second fails *)
Definition half : env := mkEnv (fun _ => Some h1) (fun _ => true) (fun n => if Nat.eqb n 3 then WNo else WDone).
Definition path_max : nat := Z.to_nat 4096.

Lemma good_fine : fine good h1.
Proof. repeat split. Qed.

Lemma client_then_server : load path_max 64 good (run path_max 64 good [] [UseClient; Again; UseCert None] (fresh [] 0 0)) = (None, None).
Proof. vm_compute. reflexivity. Qed.
Lemma server_then_client : load path_max 64 good (run path_max 64 good [] [UseCert None; Again; UseClient] (fresh [] 0 0)) = (None, None).
Proof. vm_compute. reflexivity. Qed.
Lemma both_twice :
  load path_max 64 good (run path_max 64 good [] [UseClient; UseCert None] (fresh [] 0 0)) = (Some (Cert 0), Some (Key 0)) /\
  load path_max 64 good (run path_max 64 good [] [UseClient; UseCert None; Again; UseClient; UseCert None] (fresh [] 0 0)) = (None, None).
Proof. vm_compute. auto. Qed.

Definition own (d : text) : list (text * content) := [(d ++ h1 ++ [46; 99; 114; 116], Cert 7); (d ++ h1 ++ [46; 107; 101; 121], Key 7)].

Lemma overwritten : let d := [100; 47] in
  load path_max 64 good (run path_max 64 good [] [UseCert (Some d)] (fresh (own d) 0 0)) = (Some (Cert 7), Some (Key 7)) /\
  load path_max 64 good (run path_max 64 good [] [UseCert (Some d); UseClient] (fresh (own d) 0 0)) = (Some (Cert 0), Some (Key 0)).
Proof. vm_compute. auto. Qed.
Lemma replaced : let d := [46; 46; 47] in
  load path_max 64 good (run path_max 64 good [] [UseCert (Some d)] (fresh (own d) 0 0)) = (Some (Cert 7), Some (Key 7)) /\
  load path_max 64 good (run path_max 64 good [] [UseCert None] (fresh (own d) 0 0)) = (Some (Cert 0), Some (Key 0)).
Proof. vm_compute. auto. Qed.
Lemma torn : let d := [46; 46; 47] in
  load path_max 64 half (run path_max 64 half [] [UseCert None] (fresh (own d) 0 0)) = (Some (Cert 7), Some (Key 0)).
Proof. vm_compute. auto. Qed.
