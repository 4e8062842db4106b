(* Starts at which the system's calls fail: the marker is only left with a pair, so that the next start tries again. *)
From Verif Require Import Base CnModel CnProofs CnProofs2 CnProofs3 CnProofs4.
From Coq Require Import Lia.
Open Scope Z_scope.
Open Scope list_scope.

Lemma last_ne (a b : text) x y c d : x <> y -> x <> 47 -> y <> 47 -> canon (a ++ c ++ [x]) <> canon (b ++ d ++ [y]).
Proof.
  intros N Nx Ny E.
  assert (A : last (canon (a ++ c ++ [x])) 47 = x) by (apply (canon_last _ _ x (Nat.le_refl _)); [apply last_snoc|exact Nx]).
  assert (B : last (canon (b ++ d ++ [y])) 47 = y) by (apply (canon_last _ _ y (Nat.le_refl _)); [apply last_snoc|exact Ny]).
  rewrite E, B in A. congruence.
Qed.

Lemma marker_crt h D g : canon (h ++ [46; 108; 111; 99; 97; 108]) <> canon (D ++ g ++ crt).
Proof.
  change (h ++ [46; 108; 111; 99; 97; 108]) with (h ++ [46; 108; 111; 99; 97] ++ [108]). unfold crt.
  change [46; 99; 114; 116] with ([46; 99; 114] ++ [116]). rewrite (app_assoc g). apply last_ne; lia.
Qed.
Lemma marker_key h D g : canon (h ++ [46; 108; 111; 99; 97; 108]) <> canon (D ++ g ++ key_).
Proof.
  change (h ++ [46; 108; 111; 99; 97; 108]) with (h ++ [46; 108; 111; 99; 97] ++ [108]). unfold key_.
  change [46; 107; 101; 121] with ([46; 107; 101] ++ [121]). rewrite (app_assoc g). apply last_ne; lia.
Qed.

Lemma new_inv PM e P fs t k : (3 < PM)%nat -> inv PM e P (fresh fs t k).
Proof. intros HP. split; cbn; [auto|lia|left; repeat split]. Qed.

Lemma pair_stays e p s D h : pairof (files s) D h -> pairof (files (touch_file e p s)) D h.
Proof.
  intros [n [A B]]. unfold touch_file. destruct (wr_ e (tick s)); [exists n; auto| |];
    (destruct (look p (files s)) eqn:E; [exists n; auto|]); exists n; cbn [files set_files]; split; apply look_add; auto.
Qed.

Section P.
Variable PM MH : nat.
Variable e : env.
Variable H : text.
Hypothesis HP : (3 < PM)%nat.
Hypothesis HM : (10 <= MH)%nat.
Hypothesis HH : H <> [] /\ (length H < MH)%nat.
Hypothesis HG : forall n, gh e n = Some H.

Lemma gh_hosts : hosts MH e.
Proof. intros n h K. rewrite HG in K. injection K as <-. apply HH. Qed.

Lemma write_two p c z : exists z', write e p c z = (true, z') /\ files z' = (canon p, c) :: files z /\ wr_ e (tick z) = WDone \/
  (exists z', write e p c z = (false, z') /\ (files z' = files z \/ files z' = (canon p, Other) :: files z)).
Proof.
  unfold write. destruct (wr_ e (tick z)) eqn:W.
  - exists z. right. eexists. split; [reflexivity|]. auto.
  - exists z. right. eexists. split; [reflexivity|]. auto.
  - eexists. left. split; [reflexivity|]. auto.
Qed.

Lemma look_cons q p c fs : canon q <> canon p -> look q ((canon p, c) :: fs) = look q fs.
Proof. intros N. cbn [look]. rewrite teq_false; auto. Qed.

(* making the pair, with calls that may fail: it is made if the answer is true, and the marker is not touched *)
Lemma export_any D d s : same D H d s ->
  let (ok, s1) := export PM MH e s in
  (ok = true -> pairof (files s1) D H) /\
  look (H ++ [46; 108; 111; 99; 97; 108]) (files s1) = look (H ++ [46; 108; 111; 99; 97; 108]) (files s).
Proof.
  intros Sm. unfold export. set (s0 := mkSt _ _ _ _ _ _ _ _ _ _ _).
  assert (J0 : same D H d s0) by exact Sm. destruct (gen e (tick s)); [|split; [discriminate|reflexivity]].
  pose proof (host_same MH e D H d s0 J0) as J1. destruct (host_files MH e s0) as (F1 & _).
  destruct (hostname MH e s0) as [n s1]. cbn [snd] in J1, F1.
  destruct (named_asks PM MH e D H s1 (proj1 J1)) as (_ & _ & Q). rewrite Q. clear Q.
  assert (W : forall p c s, same D H d s -> same D H d (snd (write e p c s))).
  { intros p c z K. unfold write. destruct (wr_ e (tick z)); exact K. }
  pose proof (W (pkey s1) (Key (nkey s)) s1 J1) as J2.
  assert (Ek : pkey s1 = D ++ H ++ key_) by apply J1. rewrite Ek in *.
  pose proof (marker_key H D H) as Nk. pose proof (marker_crt H D H) as Nc.
  change (files s0) with (files s) in F1.
  destruct (write_two (D ++ H ++ key_) (Key (nkey s)) s1) as [z [(E & Fz & _)|(z' & E & Fz)]]; rewrite E in *; cbn [snd] in J2.
  - destruct (named_asks PM MH e D H z (proj1 J2)) as (Q & _). rewrite Q. clear Q.
    assert (Ec : cert z = D ++ H ++ crt) by apply J2. rewrite Ec.
    destruct (write_two (D ++ H ++ crt) (Cert (nkey s)) z) as [y [(E2 & Fy & _)|(y' & E2 & Fy)]]; rewrite E2.
    + split; [intros _; rewrite Fy, Fz; apply pair_new|]. rewrite Fy, look_cons, Fz, look_cons, F1; auto.
    + split; [discriminate|]. destruct Fy as [Fy|Fy]; rewrite Fy, ?look_cons, Fz, look_cons, F1; auto.
  - destruct (named_asks PM MH e D H z' (proj1 J2)) as (Q & _). rewrite Q. clear Q.
    assert (Ec : cert z' = D ++ H ++ crt) by apply J2. rewrite Ec.
    destruct (write_two (D ++ H ++ crt) (Cert (nkey s)) z') as [y [(E2 & Fy & _)|(y' & E2 & Fy)]]; rewrite E2;
      (split; [discriminate|]).
    + rewrite Fy, look_cons by auto. destruct Fz as [Fz|Fz]; rewrite Fz, ?look_cons, F1; auto.
    + destruct Fy as [Fy|Fy]; rewrite Fy, ?look_cons by auto; destruct Fz as [Fz|Fz]; rewrite Fz, ?look_cons, F1; auto.
Qed.

Lemma start_left fs t k : left H fs -> left H (files (use_cert PM MH e None (fresh fs t k))).
Proof.
  intros L.
  pose proof (default_first PM MH e HP HM gh_hosts (fun _ => True) None (fresh fs t k) (new_inv PM e _ fs t k HP) eq_refl) as J.
  pose proof (default_files PM MH e None (fresh fs t k)) as F1.
  assert (T : fst (default_file PM MH e None (fresh fs t k)) = H ++ local_).
  { unfold default_file, hostname. cbn [host fresh tick]. rewrite HG. cbn [dir set_dir].
    destruct (zero (or_up None)); cbn [fst touch set_touch]; apply put_id; rewrite app_length; cbn; lia. }
  assert (Hn : fst (hostname MH e (fresh fs t k)) = H).
  { unfold hostname. cbn [host fresh tick]. rewrite HG. reflexivity. }
  rewrite Hn in J. cbn [or_up] in J. rewrite put_id in J by (cbn; lia). specialize (J ltac:(discriminate)).
  unfold use_cert. destruct (default_file PM MH e None (fresh fs t k)) as [x s1]. cbn [fst snd] in *. subst x.
  cbn [files fresh] in F1.
  unfold exists_. destruct (look (H ++ local_) (files s1)) eqn:E.
  - rewrite F1. exact L.
  - pose proof (export_any _ _ s1 J) as X. destruct (export PM MH e s1) as [ok s2]. destruct X as [X1 X2].
    destruct ok; [right; apply pair_stays; auto|]. left. rewrite X2. exact E.
Qed.
End P.

(* starts of a server whose host is called H, with whatever failures: the environment of each, and where its counters begin *)
Definition starts (PM MH : nat) (es : list (env * nat * nat)) (fs : list (text * content)) : list (text * content) :=
  fold_left (fun fs '(e, t, k) => files (use_cert PM MH e None (fresh fs t k))) es fs.

Lemma starts_left PM MH H : (3 < PM)%nat -> (10 <= MH)%nat -> H <> [] /\ (length H < MH)%nat -> forall es fs,
  Forall (fun x => forall n, gh (fst (fst x)) n = Some H) es -> left H fs -> left H (starts PM MH es fs).
Proof.
  intros HP HM HH. unfold starts. induction es as [|[[e t] k] es IH]; intros fs F L; [exact L|].
  inversion F; subst. cbn [fold_left]. apply IH; auto. apply start_left; auto.
Qed.

Lemma retry PM MH e H : (3 < PM)%nat -> (10 <= MH)%nat -> H <> [] /\ (length H < MH)%nat -> fine e H ->
  forall es dflt fs t k l,
  Forall (fun x => forall n, gh (fst (fst x)) n = Some H) es ->
  look (H ++ [46; 108; 111; 99; 97; 108]) fs = None \/ pairof fs [46; 46; 47] H -> ~ In Again l ->
  exists n, load PM MH e (run PM MH e dflt (UseCert None :: l) (fresh (starts PM MH es fs) t k)) = (Some (Cert n), Some (Key n)).
Proof.
  intros HP HM HH HF es dflt fs t k l F L Na.
  apply (servers PM MH e H HP HM HH HF dflt [] (starts PM MH es fs) t k l); auto. apply starts_left; auto.
Qed.

(* the second write is cut short *)
Definition cut : env := mkEnv (fun _ => Some h1) (fun _ => true) (fun n => if Nat.eqb n 3 then WCut else WDone).

Lemma cut_short : let d := [46; 46; 47] in
  load path_max 64 cut (run path_max 64 cut [] [UseCert None] (fresh (own d) 0 0)) = (Some Other, Some (Key 0)).
Proof. vm_compute. reflexivity. Qed.
