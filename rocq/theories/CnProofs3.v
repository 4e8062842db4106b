(* The pair of files made for a server or client that has none. *)
From Verif Require Import Base CnModel CnProofs CnProofs2.
From Coq Require Import Lia.
Open Scope Z_scope.
Open Scope list_scope.

(* every call of the system succeeds, and the host's name is H *)
Definition fine (e : env) (H : text) : Prop :=
  (forall n, gh e n = Some H) /\ (forall n, gen e n = true) /\ (forall n, wr_ e n = WDone).

(* the files D/h.crt and D/h.key are a certificate and its key *)
Definition pairof (fs : list (text * content)) (D h : text) : Prop :=
  exists n, look (D ++ h ++ [46; 99; 114; 116]) fs = Some (Cert n) /\ look (D ++ h ++ [46; 107; 101; 121]) fs = Some (Key n).

Lemma teq_refl a : teq a a = true.
Proof. unfold teq. destruct (list_eq_dec Z.eq_dec a a); congruence. Qed.
Lemma teq_false a b : a <> b -> teq a b = false.
Proof. intros N. unfold teq. destruct (list_eq_dec Z.eq_dec a b); congruence. Qed.
Lemma teq_eq a b : teq a b = true -> a = b.
Proof. unfold teq. destruct (list_eq_dec Z.eq_dec a b); congruence. Qed.

Lemma canon_cases p : (exists r, p = 46 :: 47 :: r /\ canon p = canon r) \/ canon p = p.
Proof.
  destruct p as [|a [|b r]]; [right; reflexivity|right; cbn; destruct a as [|q|]; auto; do 6 (destruct q; auto)|].
  destruct (Z.eq_dec a 46) as [->|Na].
  - destruct (Z.eq_dec b 47) as [->|Nb]; [left; exists r; split; reflexivity|right].
    cbn. destruct b as [|q|]; auto. do 6 (destruct q; auto). lia.
  - right. cbn. destruct a as [|q|]; auto. do 6 (destruct q; auto). lia.
Qed.

(* the file's last byte is the name's *)
Lemma canon_last n : forall p x, (length p <= n)%nat -> last p 47 = x -> x <> 47 -> last (canon p) 47 = x.
Proof.
  induction n as [|n IH]; intros p x L E N.
  - destruct p; [cbn in E; congruence|cbn in L; lia].
  - destruct (canon_cases p) as [(r & -> & ->)| ->]; [|exact E].
    apply IH; [cbn in L; lia| |exact N]. destruct r as [|c r]; [cbn in E; congruence|]. exact E.
Qed.

Lemma canon_last_app p a x : x <> 47 -> last (a ++ p) 47 = x -> last (canon (a ++ p)) 47 = x.
Proof. intros. eapply canon_last; eauto. Qed.

Lemma last_snoc (a : text) b x : last (a ++ b ++ [x]) 47 = x.
Proof. rewrite app_assoc. apply last_last. Qed.

Lemma crt_key D h : canon (D ++ h ++ [46; 99; 114; 116]) <> canon (D ++ h ++ [46; 107; 101; 121]).
Proof.
  intros E.
  assert (A : last (canon (D ++ h ++ [46; 99; 114; 116])) 47 = 116).
  { eapply canon_last; [apply Nat.le_refl| |lia].
    change [46; 99; 114; 116] with ([46; 99; 114] ++ [116]). rewrite (app_assoc h). apply last_snoc. }
  assert (B : last (canon (D ++ h ++ [46; 107; 101; 121])) 47 = 121).
  { eapply canon_last; [apply Nat.le_refl| |lia].
    change [46; 107; 101; 121] with ([46; 107; 101] ++ [121]). rewrite (app_assoc h). apply last_snoc. }
  rewrite E, B in A. discriminate.
Qed.

Lemma look_here p fs : look ([46; 47] ++ p) fs = look p fs.
Proof. induction fs as [|[q c] r IH]; [reflexivity|]. cbn [look]. rewrite IH. reflexivity. Qed.

Lemma pair_new fs D h n : pairof ((canon (D ++ h ++ crt), Cert n) :: (canon (D ++ h ++ key_), Key n) :: fs) D h.
Proof.
  exists n. cbn [look]. fold crt key_. rewrite !teq_refl. split; [reflexivity|].
  rewrite teq_false; [reflexivity|]. intros E. apply (crt_key D h). symmetry. exact E.
Qed.

Lemma look_add p q fs : look q fs = None -> forall c, look p fs = Some c -> look p ((canon q, Empty) :: fs) = Some c.
Proof.
  intros N c K. cbn [look]. destruct (teq (canon p) (canon q)) eqn:E; [|exact K]. apply teq_eq in E.
  assert (X : forall fs, look p fs = look q fs).
  { induction fs0 as [|[a b] r IH]; [reflexivity|]. cbn [look]. rewrite E, IH. reflexivity. }
  rewrite X in K. congruence.
Qed.

Lemma pair_here fs h : pairof fs [46; 47] h <-> pairof fs [] h.
Proof. unfold pairof. split; intros [n [A B]]; exists n; rewrite !look_here in *; auto. Qed.

Section P.
Variable PM MH : nat.
Variable e : env.
Variable H : text.
Hypothesis HP : (3 < PM)%nat.
Hypothesis HM : (10 <= MH)%nat.
Hypothesis HH : H <> [] /\ (length H < MH)%nat.
Hypothesis HF : fine e H.

Lemma fine_hosts : hosts MH e.
Proof. intros n h K. destruct HF as [G _]. rewrite G in K. injection K as <-. apply HH. Qed.

Lemma fine_name h : isname e h -> h = H.
Proof. intros [n K]. destruct HF as [G _]. rewrite G in K. exact K. Qed.

(* making the pair *)
Lemma export_fine (P : text -> Prop) s : P [] -> inv PM e P s ->
  exists D s1, P D /\ export PM MH e s = (true, s1) /\ named D H s1 /\ pairof (files s1) D H /\
    (forall q c, look q (files s) = Some c -> look q (files s1) <> None) /\ touch s1 = match cert s with [] => put (PM + MH + 6) (H ++ local_) | _ => touch s end /\
    inv PM e P s1.
Proof.
  intros P0 Iv. pose proof (export_inv PM MH e HP HM fine_hosts P s P0 Iv) as Ie. revert Ie.
  destruct HF as (G & Ge & W). unfold export. rewrite Ge.
  set (s0 := mkSt _ _ _ _ _ _ _ _ _ _ _).
  assert (I0 : inv PM e P s0) by (destruct Iv; split; auto).
  destruct (host_inv PM MH e HP HM P s0 I0) as [I1 N1]. apply fine_name in N1.
  destruct (host_files MH e s0) as (F1 & F2 & F3 & F4 & F5).
  assert (F6 : touch (snd (hostname MH e s0)) = touch s) by (unfold hostname; destruct (host s0); reflexivity).
  assert (F7 : host (snd (hostname MH e s0)) = H).
  { unfold hostname in *. destruct (host s0) eqn:E; cbn [snd fst host] in *; [exact N1|congruence]. }
  destruct (hostname MH e s0) as [n s1]. cbn [fst snd] in *. subst n.
  destruct (asked PM MH e HP HM fine_hosts P s1 P0 I1) as (D & h & s2 & PD & LD & Nh & A1 & A2 & Nm).
  apply fine_name in Nh. subst h. specialize (A1 Apkey). cbn [asking ending] in A1. rewrite A1.
  assert (K2 : files s2 = files s /\ nkey s2 = nkey s1 /\ touch s2 = match cert s with [] => put (PM + MH + 6) (H ++ local_) | _ => touch s end).
  { change s2 with (snd (D ++ H ++ [46; 107; 101; 121], s2)). rewrite <- A1. unfold pkey_file. cbn [snd].
    change (cert s) with (cert s0). rewrite <- F2.
    assert (U : (cert s1 = [] <-> pkey s1 = [])).
    { destruct (i_names PM e P s1 I1) as [(U1 & _ & U2)|(D' & h' & _ & _ & _ & (U1 & _ & U2))]; [tauto|].
      rewrite U1, U2. split; intros K; destruct (crt_ne _ _ _ _ K). }
    assert (Hs : hostname MH e s1 = (H, s1)) by (unfold hostname; rewrite F7; destruct H; [destruct HH; contradiction|reflexivity]).
    destruct (pkey s1) eqn:E1.
    - destruct (cert s1) eqn:E2; [|destruct U as [_ U]; discriminate (U eq_refl)].
      unfold names_setup. rewrite Hs, E2. cbn [files nkey touch]. auto.
    - destruct (cert s1) eqn:E2; [destruct U as [U _]; discriminate (U eq_refl)|]. auto. }
  destruct K2 as (K2 & K3 & K4).
  assert (Wr : forall p c z, write e p c z = (true, set_files ((canon p, c) :: files z) z)) by (intros; unfold write; rewrite W; reflexivity).
  rewrite Wr. set (s3 := set_files _ s2).
  assert (N3 : named D H s3) by exact Nm.
  destruct (named_asks PM MH e D H s3 N3) as (Q & _). rewrite Q.
  rewrite Wr. destruct Nm as (M1 & M2 & M3). intros Ie.
  eexists D, _. split; [exact PD|]. split; [reflexivity|]. split; [exact N3|].
  cbn [andb snd] in Ie. split; [|split; [|split; [exact K4|exact Ie]]].
  - cbn [files set_files s3 cert]. rewrite M1. apply pair_new.
  - intros q c Hq. cbn [files set_files s3 look]. rewrite K2.
    do 2 (match goal with |- context [if ?b then _ else _] => destruct b; [discriminate|] end).
    rewrite Hq. discriminate.
Qed.

Lemma touch_look p s q c : look q (files s) = Some c -> look q (files (touch_file e p s)) = Some c.
Proof.
  intros K. unfold touch_file. destruct HF as (_ & _ & W). rewrite W.
  destruct (look p (files s)) eqn:E; cbn [files set_files]; auto using look_add.
Qed.

Lemma touch_there p s : look p (files (touch_file e p s)) <> None.
Proof.
  unfold touch_file. destruct HF as (_ & _ & W). rewrite W.
  destruct (look p (files s)) eqn:E; cbn [files set_files]; [congruence|]. cbn [look]. rewrite teq_refl. discriminate.
Qed.

Lemma pair_touch p s D h : pairof (files s) D h -> pairof (files (touch_file e p s)) D h.
Proof. intros [n [A B]]. exists n. auto using touch_look. Qed.

(* calls that write no file *)
Definition still (o : op) : Prop :=
  match o with UseCert None | UseClient | Export => False | _ => True end.

Lemma setup_files s : files (names_setup PM MH e s) = files s.
Proof.
  unfold names_setup. destruct (host_files MH e s) as (K & _). destruct (hostname MH e s) as [n s1]. cbn [snd] in K.
  destruct (cert s1); auto.
Qed.

Lemma default_files p s : files (snd (default_file PM MH e p s)) = files s.
Proof.
  unfold default_file. destruct (host_files MH e s) as (K & _). destruct (hostname MH e s) as [n s1]. cbn [snd] in K.
  destruct p, (dir s1); cbn [snd]; auto; destruct (zero _); auto.
Qed.

Lemma still_files dflt o s : still o -> files (step PM MH e dflt o s) = files s.
Proof.
  destruct o; cbn [still step]; intros Q; try contradiction.
  - apply (host_files MH e s).
  - unfold cert_file. cbn [snd]. destruct (cert s); auto using setup_files.
  - unfold csr_file. cbn [snd]. destruct (csr s); auto using setup_files.
  - unfold pkey_file. cbn [snd]. destruct (pkey s); auto using setup_files.
  - unfold cert_path. cbn [snd]. destruct (dir s); auto.
  - destruct p; [|contradiction]. apply default_files.
  - unfold use_ca. destruct (ca s); auto.
  - unfold ca_file, use_ca. cbn [snd]. destruct (ca s) eqn:E; auto.
  - reflexivity.
Qed.

(* a server *)
Definition serving (D d : text) (s : st) : Prop :=
  same D H d s /\ inv PM e (fun _ => True) s /\ pairof (files s) D H.

Lemma named_inj D D' h s : named D h s -> named D' h s -> D = D'.
Proof. intros (A & _) (B & _). rewrite A in B. apply app_inv_tail in B. exact B. Qed.

Lemma export_serving D d s : d <> [] -> same D H d s -> inv PM e (fun _ => True) s ->
  exists s1, export PM MH e s = (true, s1) /\ serving D d s1.
Proof.
  intros Nd J Iv. destruct (export_fine (fun _ => True) s I Iv) as (D' & s1 & _ & E & N & Pr & _ & _ & Iv1).
  exists s1. split; [exact E|]. pose proof (export_same PM MH e D H d s J) as K. rewrite E in K. cbn [snd] in K.
  rewrite <- (named_inj D D' H s1 (proj1 K) N) in Pr. split; [exact K|split; assumption].
Qed.

Lemma serving_touch p D d s : serving D d s -> serving D d (touch_file e p s).
Proof. intros (A & B & C). split; [apply touch_same; auto|split; [apply touch_inv; auto|apply pair_touch; auto]]. Qed.

Lemma serving_step dflt o D d s : d <> [] -> o <> Again -> serving D d s -> serving D d (step PM MH e dflt o s).
Proof.
  intros Nd No (J & Iv & Pr).
  assert (Hd : dir s <> []) by (destruct J as [_ J]; congruence).
  assert (Q : still o -> serving D d (step PM MH e dflt o s)).
  { intros Q. split; [apply step_same; auto|]. split; [apply late_step; auto using fine_hosts|].
    rewrite still_files; auto. }
  destruct o; try (apply Q; exact I); try congruence.
  - destruct p as [p|]; [apply Q; exact I|]. clear Q. cbn [step use_cert].
    pose proof (default_same PM MH e D H d None s Nd J) as J1. destruct (default_late PM MH e HP HM _ None s Iv Hd) as [I1 _].
    pose proof (default_files None s) as F1. destruct (default_file PM MH e None s) as [t s1]. cbn [snd] in *.
    destruct (exists_ t s1); [split; [auto|split; [auto|rewrite F1; auto]]|].
    destruct (export_serving D d s1 Nd J1 I1) as (s2 & -> & K). apply serving_touch; auto.
  - clear Q. cbn [step]. unfold use_client.
    pose proof (host_same MH e D H d s J) as J1. destruct (host_inv PM MH e HP HM _ s Iv) as [I1 _].
    destruct (host_files MH e s) as (F1 & _). destruct (hostname MH e s) as [n s1]. cbn [snd] in *.
    set (s2 := mkSt _ _ _ _ _ _ _ true _ _ _). assert (J2 : same D H d s2) by exact J1.
    assert (I2 : inv PM e (fun _ => True) s2) by (destruct I1; split; auto).
    destruct (exists_ (touch s2) s2); [split; [auto|split; [auto|cbn [files s2]; rewrite F1; auto]]|].
    pose proof (default_same PM MH e D H d (Some here) s2 Nd J2) as J3.
    destruct (default_late PM MH e HP HM _ (Some here) s2 I2) as [I3 _]; [destruct J2 as [_ J2]; congruence|].
    destruct (default_file PM MH e (Some here) s2) as [t s3]. cbn [snd] in *.
    destruct (export_serving D d s3 Nd J3 I3) as (s4 & -> & K). apply serving_touch; auto.
  - clear Q. cbn [step]. destruct (export_serving D d s Nd J Iv) as (s2 & -> & K). exact K.
Qed.

Lemma serving_run dflt os : forall D d s, d <> [] -> ~ In Again os -> serving D d s -> serving D d (run PM MH e dflt os s).
Proof.
  induction os as [|o r IH]; intros D d s Nd No J; [exact J|]. cbn [run]. apply IH; auto.
  - intros K. apply No. right; auto.
  - apply serving_step; auto. intros ->. apply No. left; auto.
Qed.

Lemma serving_load D d s : serving D d s -> exists n, load PM MH e s = (Some (Cert n), Some (Key n)).
Proof.
  intros ((N & _) & _ & n & A & B). exists n. destruct (named_asks PM MH e D H s N) as (Q1 & _ & Q3).
  unfold load. rewrite Q1, Q3. destruct N as (N1 & _ & N3). rewrite N1, N3, A, B. reflexivity.
Qed.

(* the files a program that ended left behind: no marker, or the pair *)
Definition left (fs : list (text * content)) : Prop := look (H ++ [46; 108; 111; 99; 97; 108]) fs = None \/ pairof fs [46; 46; 47] H.

Lemma fresh_inv P fs t k : inv PM e P (fresh fs t k).
Proof. split; cbn; [auto|lia|left; repeat split]. Qed.

Lemma serving_start fs t k : left fs -> serving [46; 46; 47] [46; 46; 47] (use_cert PM MH e None (fresh fs t k)).
Proof.
  intros L.
  pose proof (default_first PM MH e HP HM fine_hosts (fun _ => True) None (fresh fs t k) (fresh_inv _ fs t k) eq_refl) as J.
  pose proof (default_inv PM MH e HP HM fine_hosts (fun _ => True) None (fresh fs t k) I (fresh_inv _ fs t k)) as I1.
  pose proof (default_files None (fresh fs t k)) as F1.
  assert (T : fst (default_file PM MH e None (fresh fs t k)) = H ++ local_).
  { unfold default_file, hostname. cbn [host fresh tick]. destruct HF as [G _]. rewrite G. cbn [dir set_dir].
    destruct (zero (or_up None)); cbn [fst touch set_touch]; apply put_id; rewrite app_length; cbn; lia. }
  assert (Hn : fst (hostname MH e (fresh fs t k)) = H).
  { unfold hostname. cbn [host fresh tick]. destruct HF as [G _]. rewrite G. reflexivity. }
  rewrite Hn in J. cbn [or_up] in J. rewrite put_id in J by (cbn; lia). specialize (J ltac:(discriminate)).
  unfold use_cert. destruct (default_file PM MH e None (fresh fs t k)) as [x s1]. cbn [fst snd] in *. subst x.
  unfold exists_. destruct (look (H ++ local_) (files s1)) eqn:E.
  - split; [exact J|split; [exact I1|]]. rewrite F1 in *. destruct L as [L|L]; [|exact L].
    cbn [files fresh] in E. unfold local_ in E. congruence.
  - destruct (export_serving [46; 46; 47] [46; 46; 47] s1 ltac:(discriminate) J I1) as (s2 & -> & K). apply serving_touch; auto.
Qed.

Lemma servers dflt os fs t k l : left fs -> Forall (fun p => ~ In Again p) os -> ~ In Again l ->
  exists n, load PM MH e (run PM MH e dflt (flat_map (fun p => UseCert None :: p ++ [Again]) os ++ UseCert None :: l) (fresh fs t k)) =
    (Some (Cert n), Some (Key n)).
Proof.
  revert fs t k. induction os as [|p os IH]; intros fs t k L F Na.
  - cbn [flat_map app run step]. eapply serving_load. apply serving_run; auto; [|apply serving_start; auto]. discriminate.
  - inversion F; subst. cbn [flat_map]. rewrite <- app_assoc. cbn [app run step]. rewrite <- app_assoc, run_app.
    assert (K : serving [46; 46; 47] [46; 46; 47] (run PM MH e dflt p (use_cert PM MH e None (fresh fs t k)))).
    { apply serving_run; auto; [discriminate|apply serving_start; auto]. }
    set (z := run PM MH e dflt p _) in *. cbn [app run step]. apply IH; auto. right. apply K.
Qed.

(* a client *)
Definition client_ops (o : op) : Prop := match o with UseCert _ | Again => False | _ => True end.

Definition dots (D : text) : Prop := D = [] \/ D = [46; 47].

Record cinv (s : st) : Prop := mkC {
  c_inv : inv PM e dots s;
  c_mark : look ([46; 47] ++ H ++ [46; 108; 111; 99; 97; 108]) (files s) <> None;
  c_pair : pairof (files s) [] H }.

Lemma client_step dflt o s : client_ops o -> cinv s -> cinv (step PM MH e dflt o s).
Proof.
  intros Q [A B C].
  assert (D0 : dots []) by (left; reflexivity).
  assert (K : still o -> inv PM e dots (step PM MH e dflt o s) -> cinv (step PM MH e dflt o s)).
  { intros Q1 J. split; [exact J|rewrite still_files by auto; auto..]. }
  destruct o; cbn [client_ops step] in *; try contradiction.
  - apply K; [exact I|]. apply host_inv; auto.
  - apply K; [exact I|]. apply cert_inv; auto using fine_hosts.
  - apply K; [exact I|]. apply csr_inv; auto using fine_hosts.
  - apply K; [exact I|]. apply pkey_inv; auto using fine_hosts.
  - apply K; [exact I|]. unfold cert_path. cbn [snd]. destruct (dir s) eqn:E; auto. destruct A as [A1 A2 A3].
    split; cbn; auto. apply put_len; lia.
  - unfold use_client in *. destruct (host_inv PM MH e HP HM _ s A) as [I1 Nh]. apply fine_name in Nh.
    destruct (host_files MH e s) as (F1 & _). destruct (hostname MH e s) as [n s1]. cbn [fst snd] in *. subst n.
    cbn [touch]. rewrite put_id by (rewrite !app_length; cbn; lia).
    unfold exists_. cbn [files]. rewrite F1. change (here ++ H ++ local_) with ([46; 47] ++ H ++ [46; 108; 111; 99; 97; 108]).
    destruct (look _ (files s)) eqn:E; [|congruence].
    split; cbn [files]; rewrite ?F1; auto; [|congruence]. destruct I1; split; auto.
  - apply K; [exact I|]. unfold use_ca. destruct (ca s); auto. destruct A; split; auto.
  - apply K; [exact I|]. unfold ca_file, use_ca. cbn [snd]. destruct (ca s) eqn:E; auto. destruct A; split; auto.
  - destruct (export_fine dots s D0 A) as (D & s1 & PD & E & N & Pr & Lk & _ & Iv1). rewrite E in *. cbn [snd] in *.
    split; [exact Iv1| |].
    + destruct (look _ (files s)) eqn:E1; [|congruence]. eapply Lk; eauto.
    + destruct PD as [-> | ->]; [exact Pr|apply pair_here; exact Pr].
Qed.

Lemma client_run dflt os : forall s, Forall client_ops os -> cinv s -> cinv (run PM MH e dflt os s).
Proof. induction os as [|o r IH]; intros s F J; [exact J|]. inversion F; subst. cbn [run]. apply IH; auto using client_step. Qed.

Lemma client_load s : cinv s -> exists n, load PM MH e s = (Some (Cert n), Some (Key n)).
Proof.
  intros [A _ C]. destruct (asked PM MH e HP HM fine_hosts dots s ltac:(left; reflexivity) A) as (D & h & s1 & PD & _ & Nh & Q & Q1 & _).
  apply fine_name in Nh. subst h. unfold load. pose proof (Q Acert) as Qc. cbn [asking ending] in Qc.
  assert (F : files s1 = files s).
  { pose proof (still_files [] CertFile s I) as K. cbn [step] in K. rewrite Qc in K. exact K. }
  rewrite Qc. pose proof (Q1 Apkey) as Qk. cbn [asking ending] in Qk. rewrite Qk, F.
  assert (C' : pairof (files s) D H) by (destruct PD as [-> | ->]; [exact C|apply pair_here; exact C]).
  destruct C' as [n [C1 C2]]. exists n. rewrite C1, C2. reflexivity.
Qed.

Definition left_c (fs : list (text * content)) : Prop :=
  look (H ++ [46; 108; 111; 99; 97; 108]) fs = None \/ pairof fs [] H.

Lemma client_start fs t k : left_c fs -> cinv (use_client PM MH e (fresh fs t k)).
Proof.
  intros L. unfold use_client, hostname. cbn [host fresh tick]. destruct HF as [G _]. rewrite G.
  cbn [dir cert csr pkey touch ca client files tick nkey fresh host].
  rewrite put_id by (rewrite !app_length; cbn; lia).
  set (s1 := mkSt H [] [] [] [] (here ++ H ++ local_) [] true fs (S t) k).
  assert (I1 : inv PM e dots s1).
  { split; cbn; [right; exists 0%nat; rewrite G; reflexivity|lia|left; repeat split]. }
  unfold exists_. cbn [files s1]. destruct (look (here ++ H ++ local_) fs) eqn:E.
  - split; [exact I1|cbn [files s1]; unfold here, local_ in E; congruence|]. cbn [files s1].
    destruct L as [L|L]; [|exact L]. unfold here, local_ in E. rewrite look_here in E. congruence.
  - pose proof (default_first PM MH e HP HM fine_hosts dots (Some here) s1 I1 eq_refl ltac:(discriminate)) as J.
    assert (Hn : fst (hostname MH e s1) = H) by (unfold hostname; cbn [host s1]; destruct H; [destruct HH; contradiction|reflexivity]).
    rewrite Hn in J. cbn [or_up] in J. rewrite put_id in J by (cbn; lia).
    assert (Tc : touch (snd (default_file PM MH e (Some here) s1)) = here ++ H ++ local_).
    { unfold default_file. unfold hostname. cbn [host s1]. destruct H; [destruct HH; contradiction|]. reflexivity. }
    pose proof (default_inv PM MH e HP HM fine_hosts dots (Some here) s1) as I2.
    cbn [or_up] in I2. rewrite put_id in I2 by (cbn; lia). specialize (I2 ltac:(right; reflexivity) I1).
    destruct (default_file PM MH e (Some here) s1) as [x s2]. cbn [snd] in *.
    destruct (export_fine dots s2 ltac:(left; reflexivity) I2) as (D & s3 & PD & -> & N & Pr & Lk & Tc3 & Iv3).
    assert (T3 : touch s3 = here ++ H ++ local_).
    { rewrite Tc3. destruct J as [(J & _) _]. rewrite J. rewrite Tc. destruct (here ++ H ++ [46; 99; 114; 116]) eqn:X; [discriminate|reflexivity]. }
    split; [apply touch_inv; exact Iv3| |].
    + rewrite T3. apply touch_there.
    + apply pair_touch. destruct PD as [-> | ->]; [exact Pr|apply pair_here; exact Pr].
Qed.

Lemma clients dflt os fs t k l : left_c fs -> Forall (Forall client_ops) os -> Forall client_ops l ->
  exists n, load PM MH e (run PM MH e dflt (flat_map (fun p => UseClient :: p ++ [Again]) os ++ UseClient :: l) (fresh fs t k)) =
    (Some (Cert n), Some (Key n)).
Proof.
  revert fs t k. induction os as [|p os IH]; intros fs t k L F Na.
  - cbn [flat_map app run step]. eapply client_load. apply client_run; auto using client_start.
  - inversion F; subst. cbn [flat_map]. rewrite <- app_assoc. cbn [app run step]. rewrite <- app_assoc, run_app.
    assert (K : cinv (run PM MH e dflt p (use_client PM MH e (fresh fs t k)))) by (apply client_run; auto using client_start).
    set (z := run PM MH e dflt p _) in *. cbn [app run step]. apply IH; auto. right. apply K.
Qed.
End P.

(* a program that only gives a directory writes no file *)
Lemma untouched PM MH e dflt os : forall s, Forall still os -> files (run PM MH e dflt os s) = files s.
Proof.
  induction os as [|o r IH]; intros s F; [reflexivity|]. inversion F; subst. cbn [run]. rewrite IH by auto. apply still_files; auto.
Qed.
