(* The names of the certificate and key files: they go together, and when they stay. *)
From Verif Require Import Base CnModel.
From Coq Require Import Lia.
Open Scope Z_scope.
Open Scope list_scope.

(* the directory part of the names: none, "./", "../" or the start of a path given to use_certificate *)
Definition place (PM : nat) (os : list op) (D : text) : Prop :=
  D = [] \/ D = [46; 47] \/ D = [46; 46; 47] \/ exists p, In (UseCert (Some p)) os /\ D = firstn (PM - 1) p.

Definition named (D h : text) (s : st) : Prop :=
  cert s = D ++ h ++ [46; 99; 114; 116] /\ csr s = D ++ h ++ [46; 99; 115; 114] /\ pkey s = D ++ h ++ [46; 107; 101; 121].

Definition unnamed (s : st) : Prop := cert s = [] /\ csr s = [] /\ pkey s = [].

(* gethostname never gives more than fits *)
Definition hosts (MH : nat) (e : env) : Prop := forall n h, gh e n = Some h -> (length h < MH)%nat.

(* a name gethostname gives, or "localhost" if it has none *)
Definition isname (e : env) (h : text) : Prop :=
  exists n, match gh e n with Some x => h = x | None => h = [108; 111; 99; 97; 108; 104; 111; 115; 116] end.

Lemma put_id n t : (length t < n)%nat -> put n t = t.
Proof. intros H. unfold put. apply firstn_all2. lia. Qed.

Lemma put_len n t : (0 < n)%nat -> (length (put n t) < n)%nat.
Proof. intros H. unfold put. pose proof (firstn_le_length (n - 1) t). lia. Qed.

Section P.
Variable PM MH : nat.
Variable e : env.
Hypothesis HP : (3 < PM)%nat.
Hypothesis HM : (10 <= MH)%nat.
Hypothesis HG : hosts MH e.

Record inv (P : text -> Prop) (s : st) : Prop := mkInv {
  i_host : host s = [] \/ isname e (host s);
  i_dir : (length (dir s) < PM)%nat;
  i_names : unnamed s \/ exists D h, P D /\ (length D < PM)%nat /\ isname e h /\ named D h s }.

Lemma name_len h : isname e h -> (length h < MH)%nat.
Proof. intros [n K]. destruct (gh e n) eqn:G; subst h; [eapply HG; eauto|cbn; lia]. Qed.

Lemma inv_weak (P Q : text -> Prop) s : (forall D, P D -> Q D) -> inv P s -> inv Q s.
Proof. intros K [A B C]. split; auto. destruct C as [C|(D & h & C1 & C)]; [left; auto|right; eauto 6]. Qed.

Lemma host_inv P s : inv P s -> inv P (snd (hostname MH e s)) /\ isname e (fst (hostname MH e s)).
Proof.
  intros [A B C]. unfold hostname. destruct (host s) eqn:E.
  - assert (L : isname e (match gh e (tick s) with Some n => n | None => put MH localhost end)).
    { exists (tick s). destruct (gh e (tick s)) eqn:G; auto. apply put_id. cbn; lia. }
    cbn [fst snd]. split; [|exact L]. split; cbn; auto.
  - cbn [fst snd]. split; [split; auto; rewrite E; auto|]. destruct A as [A|A]; [discriminate|auto].
Qed.

Lemma host_files s : files (snd (hostname MH e s)) = files s /\ cert (snd (hostname MH e s)) = cert s /\
  csr (snd (hostname MH e s)) = csr s /\ pkey (snd (hostname MH e s)) = pkey s /\ dir (snd (hostname MH e s)) = dir s.
Proof. unfold hostname. destruct (host s); cbn; auto. Qed.

Lemma setup_inv (P : text -> Prop) s : P [] -> inv P s -> inv P (names_setup PM MH e s).
Proof.
  intros P0 Iv. unfold names_setup. destruct (host_inv P s Iv) as [J L].
  destruct (hostname MH e s) as [n s1]. cbn [fst snd] in *.
  destruct (cert s1) eqn:E; [|exact J]. pose proof (name_len _ L) as L'.
  destruct J as [A B C]. split; cbn; auto. right. exists [], n. repeat split; auto; try (cbn; lia);
  cbn [cert csr pkey app]; apply put_id; rewrite app_length; cbn; lia.
Qed.

Lemma cert_inv (P : text -> Prop) s : P [] -> inv P s -> inv P (snd (cert_file PM MH e s)).
Proof. intros. unfold cert_file. cbn [snd]. destruct (cert s); auto using setup_inv. Qed.
Lemma csr_inv (P : text -> Prop) s : P [] -> inv P s -> inv P (snd (csr_file PM MH e s)).
Proof. intros. unfold csr_file. cbn [snd]. destruct (csr s); auto using setup_inv. Qed.
Lemma pkey_inv (P : text -> Prop) s : P [] -> inv P s -> inv P (snd (pkey_file PM MH e s)).
Proof. intros. unfold pkey_file. cbn [snd]. destruct (pkey s); auto using setup_inv. Qed.

Lemma default_inv (P : text -> Prop) p s :
  P (put PM (or_up p)) -> inv P s -> inv P (snd (default_file PM MH e p s)).
Proof.
  intros Pd Iv. unfold default_file. destruct (host_inv P s Iv) as [J L].
  destruct (hostname MH e s) as [n s1]. cbn [fst snd] in *.
  pose proof (name_len _ L) as L'.
  match goal with |- context [match dir s1 with [] => ?x | _ => _ end] => set (Y := x) end.
  assert (K : inv P (match dir s1 with [] => Y | _ :: _ => s1 end)).
  { destruct (dir s1) eqn:E; [|exact J]. subst Y. destruct J as [A B C].
    destruct (zero (or_up p)).
    - split; cbn; auto. apply put_len; lia.
    - split; cbn; auto; [apply put_len; lia|]. right. exists (put PM (or_up p)), n.
      assert (Q := put_len PM (or_up p) ltac:(lia)).
      repeat split; auto; cbn [cert csr pkey dir set_dir]; apply put_id; rewrite !app_length; cbn; lia. }
  generalize dependent (match dir s1 with [] => Y | _ :: _ => s1 end). intros z [A B C].
  destruct p; cbn [snd]; split; cbn; auto.
Qed.

Lemma export_inv (P : text -> Prop) s : P [] -> inv P s -> inv P (snd (export PM MH e s)).
Proof.
  intros P0 Iv. unfold export.
  set (s0 := mkSt (host s) (dir s) (cert s) (csr s) (pkey s) (touch s) (ca s) (client s) (files s) (S (tick s)) (S (nkey s))).
  assert (I0 : inv P s0) by (destruct Iv; split; auto).
  destruct (gen e (tick s)); [|exact I0].
  destruct (host_inv P s0 I0) as [I1 _]. destruct (hostname MH e s0) as [n s1]. cbn [fst snd] in *.
  pose proof (pkey_inv P s1 P0 I1) as I2. destruct (pkey_file PM MH e s1) as [pk s2]. cbn [snd] in *.
  assert (W : forall p c s, inv P s -> inv P (snd (write e p c s))).
  { intros p c z [A B C]. unfold write. destruct (wr_ e (tick z)); split; cbn; auto. }
  pose proof (W pk (Key (nkey s)) s2 I2) as I3. destruct (write e pk (Key (nkey s)) s2) as [a s3]. cbn [snd] in *.
  pose proof (cert_inv P s3 P0 I3) as I4. destruct (cert_file PM MH e s3) as [ct s4]. cbn [snd] in *.
  pose proof (W ct (Cert (nkey s)) s4 I4) as I5. destruct (write e ct (Cert (nkey s)) s4) as [b s5]. exact I5.
Qed.

Lemma touch_inv P p s : inv P s -> inv P (touch_file e p s).
Proof. intros [A B C]. unfold touch_file. destruct (wr_ e (tick s)); [|destruct (look p (files s))..]; split; cbn; auto. Qed.

Lemma step_inv (P : text -> Prop) dflt o s :
  P [] -> P [46; 47] -> P [46; 46; 47] -> (forall p, o = UseCert (Some p) -> P (firstn (PM - 1) p)) ->
  inv P s -> inv P (step PM MH e dflt o s).
Proof.
  intros P0 P1 P2 P3 Iv.
  assert (Pup : P (put PM up)) by (rewrite put_id by (cbn; lia); exact P2).
  assert (Phere : P (put PM here)) by (rewrite put_id by (cbn; lia); exact P1).
  destruct o; cbn [step].
  - apply host_inv; auto.
  - apply cert_inv; auto.
  - apply csr_inv; auto.
  - apply pkey_inv; auto.
  - unfold cert_path. cbn [snd]. destruct (dir s) eqn:E; auto. destruct Iv as [A B C]. split; cbn; auto. apply put_len; lia.
  - unfold use_cert. destruct p as [p|].
    + apply default_inv; auto. exact (P3 p eq_refl).
    + pose proof (default_inv P None s Pup Iv) as J.
      destruct (default_file PM MH e None s) as [t s1]. cbn [snd] in J.
      destruct (exists_ t s1); auto. pose proof (export_inv P s1 P0 J) as K.
      destruct (export PM MH e s1) as [ok s2]. cbn [snd] in K. destruct ok; auto using touch_inv.
  - unfold use_client. destruct (host_inv P s Iv) as [J _]. destruct (hostname MH e s) as [n s1]. cbn [snd] in J.
    set (s2 := mkSt _ _ _ _ _ _ _ true _ _ _). assert (J2 : inv P s2) by (destruct J; split; auto).
    destruct (exists_ (touch s2) s2); auto.
    pose proof (default_inv P (Some here) s2 Phere J2) as J3. destruct (default_file PM MH e (Some here) s2) as [t s3].
    cbn [snd] in J3. pose proof (export_inv P s3 P0 J3) as K.
    destruct (export PM MH e s3) as [ok s4]. cbn [snd] in K. destruct ok; auto using touch_inv.
  - unfold use_ca. destruct (ca s); auto. destruct Iv; split; auto.
  - unfold ca_file, use_ca. cbn [snd]. destruct (ca s) eqn:E; auto. destruct Iv; split; auto.
  - apply export_inv; auto.
  - split; cbn; [auto|lia|left; repeat split].
Qed.

Lemma run_inv dflt os : forall (P : text -> Prop) s,
  P [] -> P [46; 47] -> P [46; 46; 47] -> (forall p, In (UseCert (Some p)) os -> P (firstn (PM - 1) p)) ->
  inv P s -> inv P (run PM MH e dflt os s).
Proof.
  induction os as [|o r IH]; intros P s P0 P1 P2 P3 Iv; [exact Iv|]. cbn [run]. apply IH; auto.
  - intros p Hp. apply P3. right; auto.
  - apply step_inv; auto. intros p ->. apply P3. left; auto.
Qed.

Lemma start_inv dflt os fs t k : inv (place PM os) (run PM MH e dflt os (fresh fs t k)).
Proof.
  apply run_inv; unfold place; auto.
  - intros p Hp. right. right. right. eauto.
  - split; cbn; [auto|lia|left; repeat split].
Qed.

Lemma crt_ne (D h x : text) a : D ++ h ++ a :: x = [] -> False.
Proof. intros H. apply app_eq_nil in H. destruct H as [_ H]. apply app_eq_nil in H. destruct H. discriminate. Qed.

Lemma named_asks D h s : named D h s ->
  cert_file PM MH e s = (cert s, s) /\ csr_file PM MH e s = (csr s, s) /\ pkey_file PM MH e s = (pkey s, s).
Proof.
  intros (A & B & C). unfold cert_file, csr_file, pkey_file.
  destruct (cert s) eqn:E1; [symmetry in A; destruct (crt_ne _ _ _ _ A)|].
  destruct (csr s) eqn:E2; [symmetry in B; destruct (crt_ne _ _ _ _ B)|].
  destruct (pkey s) eqn:E3; [symmetry in C; destruct (crt_ne _ _ _ _ C)|].
  rewrite E1, E2, E3. auto.
Qed.

Lemma ask_named (P : text -> Prop) s : P [] -> inv P s ->
  (exists D h, P D /\ (length D < PM)%nat /\ isname e h /\ named D h (snd (cert_file PM MH e s))) /\
  (unnamed s -> snd (csr_file PM MH e s) = snd (cert_file PM MH e s) /\ snd (pkey_file PM MH e s) = snd (cert_file PM MH e s)).
Proof.
  intros P0 Iv. split.
  - pose proof (cert_inv P s P0 Iv) as [_ _ [U|N]]; [|exact N]. exfalso.
    destruct U as (U & _). revert U. unfold cert_file. cbn [snd]. destruct (cert s) eqn:E; [|rewrite E; discriminate].
    unfold names_setup. destruct (host_files s) as (_ & Hc & _). destruct (hostname MH e s) as [n s1]. cbn [snd] in Hc.
    rewrite Hc, E. cbn [cert]. unfold put. replace (PM + MH + 4 - 1)%nat with (S (PM + MH + 2)) by lia.
    destruct n; discriminate.
  - intros (A & B & C). unfold cert_file, csr_file, pkey_file. rewrite A, B, C. auto.
Qed.

(* any of the three is asked for first, then the others *)
Inductive ask := Acert | Acsr | Apkey.
Definition asking (a : ask) (s : st) : text * st :=
  match a with Acert => cert_file PM MH e s | Acsr => csr_file PM MH e s | Apkey => pkey_file PM MH e s end.
Definition ending (a : ask) : text :=
  match a with Acert => [46; 99; 114; 116] | Acsr => [46; 99; 115; 114] | Apkey => [46; 107; 101; 121] end.

Lemma asked (P : text -> Prop) s : P [] -> inv P s -> exists D h s1, P D /\ (length D < PM)%nat /\ isname e h /\
  (forall a, asking a s = (D ++ h ++ ending a, s1)) /\ (forall a, asking a s1 = (D ++ h ++ ending a, s1)) /\ named D h s1.
Proof.
  intros P0 Iv. destruct (i_names P s Iv) as [U|(D & h & C1 & C2 & C3 & N)].
  - destruct (ask_named P s P0 Iv) as [(D & h & C1 & C2 & C3 & N) K]. destruct (K U) as [K1 K2].
    exists D, h, (snd (cert_file PM MH e s)). destruct (named_asks D h _ N) as (Q1 & Q2 & Q3).
    assert (T : forall a, asking a (snd (cert_file PM MH e s)) = (D ++ h ++ ending a, snd (cert_file PM MH e s))).
    { destruct N as (N1 & N2 & N3). intros []; cbn [asking ending]; rewrite ?Q1, ?Q2, ?Q3, ?N1, ?N2, ?N3; auto. }
    repeat (split; [assumption|]). split; [|split; assumption].
    intros a. rewrite <- T. destruct N as (N1 & N2 & N3). destruct a; cbn [asking].
    + rewrite Q1. unfold cert_file. reflexivity.
    + rewrite Q2, <- K1. unfold csr_file. reflexivity.
    + rewrite Q3, <- K2. unfold pkey_file. reflexivity.
  - exists D, h, s. destruct (named_asks D h _ N) as (Q1 & Q2 & Q3).
    assert (T : forall a, asking a s = (D ++ h ++ ending a, s)).
    { destruct N as (N1 & N2 & N3). intros []; cbn [asking ending]; rewrite ?Q1, ?Q2, ?Q3, ?N1, ?N2, ?N3; auto. }
    repeat (split; [assumption|]). auto.
Qed.
End P.

Lemma c168 PM MH e dflt os fs t k : (3 < PM)%nat -> (10 <= MH)%nat -> hosts MH e ->
  let s := run PM MH e dflt os (fresh fs t k) in
  exists D h s1, place PM os D /\ (length D < PM)%nat /\ isname e h /\
    (forall a, asking PM MH e a s = (D ++ h ++ ending a, s1)) /\ (forall a, asking PM MH e a s1 = (D ++ h ++ ending a, s1)).
Proof.
  intros HP HM HG s. destruct (asked PM MH e HP HM HG (place PM os) s) as (D & h & s1 & A & B & C & F & G & _).
  - left; reflexivity.
  - apply start_inv; auto.
  - exists D, h, s1. auto 8.
Qed.
