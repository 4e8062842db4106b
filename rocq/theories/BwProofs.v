(* What a look at a watched directory finds. *)
From Verif Require Import Base StrModel StrProofs StrProofs2 BwModel.

(* ---- specification ---- *)
(* a directory: its regular files in the order the system lists them *)
Definition world := list (bytes * meta).
(* the names of the regular files of a listing *)
Definition regs (l : list (kind * bytes)) : list bytes :=
  map snd (filter (fun x => match fst x with KReg => true | _ => false end) l).
(* what the library has on record *)
Definition known (s : st) : world := map (fun e => (e_name e, e_meta e)) (files s).
(* stat answers for every file of [w] *)
Definition there (pm : nat) (stat : bytes -> option meta) (top : bytes) (w : world) : Prop :=
  Forall (fun x => stat (sub pm top (fst x)) = Some (snd x)) w.
(* the whole path can be shown: short enough, no zero byte, no blank at either end *)
Definition showable (pm : nat) (top n : bytes) : Prop :=
  length top + 1 + length n < pm /\ nul_free (top ++ 47%Z :: n) /\ tight (top ++ 47%Z :: n).

Lemma name_eqb_refl n : name_eqb n n = true.
Proof. unfold name_eqb. destruct (list_eq_dec Z.eq_dec n n); congruence. Qed.
Lemma name_eqb_neq a b : a <> b -> name_eqb a b = false.
Proof. unfold name_eqb. destruct (list_eq_dec Z.eq_dec a b); congruence. Qed.
Lemma same_meta_true a b : same_meta a b = true <-> a = b.
Proof.
  unfold same_meta. destruct a as [a1 a2 a3], b as [b1 b2 b3]; simpl. split.
  - intros H. assert (a1 = b1 /\ a2 = b2 /\ a3 = b3) as (-> & -> & ->) by lia. reflexivity.
  - intros H; injection H; intros; subst. rewrite !Z.eqb_refl. reflexivity.
Qed.
Lemma same_meta_refl a : same_meta a a = true.
Proof. now apply same_meta_true. Qed.
Lemma same_meta_neq a b : a <> b -> same_meta a b = false.
Proof. intros H. destruct (same_meta a b) eqn:E; auto. apply same_meta_true in E. contradiction. Qed.

Lemma regs_cons k n l : regs ((k, n) :: l) = match k with KReg => n :: regs l | _ => regs l end.
Proof. destruct k; reflexivity. Qed.

(* the part of the directory that is as recorded is passed over *)
Lemma scan_skip loop pm stat top : forall w l names i mx s,
  regs l = map fst w ++ names -> (exists a b, known s = a ++ w ++ b /\ length a = i) -> i + length w <= mx ->
  there pm stat top w ->
  exists l', regs l' = names /\ scan loop pm stat top l i mx s = scan loop pm stat top l' (i + length w) mx s.
Proof.
  induction w as [|[n m] w IH]; intros l names i mx s Hr Hk Hm Ht.
  - exists l. split; [exact Hr|]. simpl. now rewrite Nat.add_0_r.
  - induction l as [|[k x] l IHl]; [discriminate|].
    rewrite regs_cons in Hr. destruct k.
    + destruct (IHl Hr) as (l' & R & E). exists l'. split; auto.
    + simpl in Hr. injection Hr as -> Hr. destruct Hk as (a & b & Hk & La).
      inversion Ht as [|? ? Hs Ht']; subst. simpl in Hs.
      destruct (IH l names (S (length a)) mx s Hr) as (l' & R & E); auto.
      * exists (a ++ [(n, m)]), b. rewrite <- app_assoc. split; [exact Hk|]. rewrite app_length; simpl; lia.
      * simpl in Hm; lia.
      * exists l'. split; auto. cbn [scan].
        destruct (Nat.leb_spec mx (length a)); [simpl in Hm; lia|].
        assert (Hn : exists f, nth_error (files s) (length a) = Some f /\ (e_name f, e_meta f) = (n, m)).
        { unfold known in Hk. assert (Hx : nth_error (map (fun e => (e_name e, e_meta e)) (files s)) (length a) = Some (n, m)).
          { rewrite Hk, nth_error_app2, Nat.sub_diag by lia. reflexivity. }
          rewrite nth_error_map in Hx. destruct (nth_error (files s) (length a)) as [f|]; [|discriminate]. simpl in Hx. injection Hx as Hx1 Hx2.
          exists f. split; congruence. }
        destruct Hn as (f & Hf & Ef). injection Ef as Ef1 Ef2. unfold rd. rewrite Hf. cbn [bind].
        rewrite Ef1, name_eqb_refl, Hs, Ef2, same_meta_refl, E. simpl. f_equal. lia.
    + destruct (IHl Hr) as (l' & R & E). exists l'. split; auto.
Qed.

Lemma scan_end loop pm stat top l i mx s : regs l = [] -> scan loop pm stat top l i mx s = Ok s.
Proof. induction l as [|[k x] l IH]; auto. rewrite regs_cons. destruct k; simpl; auto; discriminate. Qed.
(* the next regular file *)
Lemma scan_next loop pm stat top l i mx s n names : regs l = n :: names ->
  exists l', regs l' = names /\ scan loop pm stat top l i mx s = scan loop pm stat top ((KReg, n) :: l') i mx s.
Proof.
  induction l as [|[k x] l IH]; [discriminate|]. rewrite regs_cons. destruct k; intros H.
  - destruct (IH H) as (l' & R & E). exists l'. split; auto.
  - injection H as -> H. exists l. split; auto.
  - destruct (IH H) as (l' & R & E). exists l'. split; auto.
Qed.
Lemma known_at s a n m b : known s = a ++ (n, m) :: b ->
  exists f, nth_error (files s) (length a) = Some f /\ e_name f = n /\ e_meta f = m.
Proof.
  intros Hk. assert (Hx : nth_error (known s) (length a) = Some (n, m)).
  { rewrite Hk, nth_error_app2, Nat.sub_diag by lia. reflexivity. }
  unfold known in Hx. rewrite nth_error_map in Hx. destruct (nth_error (files s) (length a)) as [f|]; [|discriminate].
  simpl in Hx. injection Hx as Hx1 Hx2. exists f. auto.
Qed.
Lemma known_len s : length (known s) = length (files s).
Proof. unfold known. apply map_length. Qed.

Lemma map_set {A B} (f : A -> B) i v l : map f (set_nth i v l) = set_nth i (f v) (map f l).
Proof. revert i; induction l as [|x l IH]; intros [|i]; simpl; auto. now rewrite IH. Qed.
Lemma map_drop_at {A B} (f : A -> B) i l : map f (drop_at i l) = drop_at i (map f l).
Proof. unfold drop_at. rewrite map_app, firstn_map, skipn_map. reflexivity. Qed.
Lemma drop_at_mid {A} (a : list A) x b : drop_at (length a) (a ++ x :: b) = a ++ b.
Proof.
  unfold drop_at. rewrite firstn_app, Nat.sub_diag, firstn_O, app_nil_r, firstn_all.
  f_equal. replace (S (length a)) with (length (a ++ [x])) by (rewrite app_length; simpl; lia).
  change (x :: b) with ([x] ++ b). rewrite app_assoc, skipn_app, Nat.sub_diag, skipn_all. reflexivity.
Qed.
Lemma sub_full pm top n : length top + 1 + length n < pm -> sub pm top n = top ++ 47%Z :: n.
Proof. intros H. unfold sub, slash. apply firstn_all2. rewrite app_length; simpl; lia. Qed.
Lemma trim_tight t : nul_free t -> tight t -> exists buf o, trim t = Ok (buf, o) /\ cstr buf o = t.
Proof.
  intros Hn Ht. destruct (trim_spec [] t [] (Forall_nil _) (Forall_nil _) Ht) as (buf & o & E & C).
  - rewrite app_nil_r. exact Hn.
  - rewrite app_nil_r in E. exists buf, o. auto.
Qed.

(* ---- one file changed ---- *)
Lemma look_modified loop pm stat top s a n m m' b l : known s = a ++ (n, m) :: b -> regs l = map fst (a ++ (n, m') :: b) ->
  there pm stat top (a ++ (n, m') :: b) -> m' <> m ->
  exists s', look loop pm stat top (Some l) s = Ok (s', UText (if loop then n else sub pm top n)) /\ known s' = a ++ (n, m') :: b /\ used s' = negb loop /\
    off s' = length (a ++ (n, m') :: b) /\ cnt s' = length (a ++ (n, m') :: b) /\ (loop = true -> work s' = UNull /\ path s' = path s).
Proof.
  intros Hk Hr Ht Hne. unfold look.
  assert (Hl : length (files s) = length a + S (length b)) by (rewrite <- known_len, Hk, app_length; reflexivity).
  rewrite map_app in Hr. simpl in Hr. apply Forall_app in Ht as (Ha & Ht). inversion Ht as [|? ? Hn Hb]; subst. simpl in Hn.
  destruct (scan_skip loop pm stat top a l _ 0 (length (files s)) s Hr) as (l1 & R1 & E1); auto; [exists [], ((n, m) :: b); auto|lia|].
  rewrite E1. destruct (scan_next loop pm stat top l1 (0 + length a) (length (files s)) s n (map fst b) R1) as (l2 & R2 & E2).
  rewrite E2. destruct (known_at s a n m b Hk) as (f & Hf & Fn & Fm). cbn [scan].
  destruct (Nat.leb_spec (length (files s)) (0 + length a)); [lia|]. simpl (0 + length a). unfold rd. rewrite Hf. cbn [bind].
  rewrite Fn, name_eqb_refl, Hn, Fm, (same_meta_neq m' m) by auto.
  assert (Hk' : map (fun e => (e_name e, e_meta e)) (set_nth (length a) {| e_name := n; e_meta := m' |} (files s)) = a ++ (n, m') :: b).
  { rewrite map_set. fold (known s). rewrite Hk. simpl. apply nth_set_app. }
  assert (Hlen : forall x y : bytes * meta, length (a ++ x :: b) = length (files s)) by (intros; rewrite app_length, Hl; reflexivity).
  destruct loop; cbn [bind]; unfold finish; simpl.
  - eexists. split; [reflexivity|]. split; [exact Hk'|]. simpl. rewrite set_nth_length, (Hlen (n, m') (n, m')). auto.
  - eexists. split; [reflexivity|]. split; [exact Hk'|]. simpl. rewrite set_nth_length, (Hlen (n, m') (n, m')). repeat split; auto; discriminate.
Qed.

Lemma missing_at pm stat top : forall w n fs i b, map (fun e => (e_name e, e_meta e)) fs = w ++ n :: b -> there pm stat top w ->
  stat (sub pm top (fst n)) = None -> missing pm stat top fs i = Some (i + length w, sub pm top (fst n)).
Proof.
  induction w as [|x w IH]; intros n fs i b Hm Ht Hn; destruct fs as [|f fs]; try discriminate; simpl in Hm; injection Hm as Hf Hm.
  - subst n. simpl in *. rewrite Hn. f_equal. f_equal. lia.
  - inversion Ht as [|? ? Hx Ht']; subst. simpl in *. rewrite Hx. rewrite (IH n fs (S i) b); auto. f_equal. f_equal. lia.
Qed.
Lemma missing_none pm stat top : forall w fs i, map (fun e => (e_name e, e_meta e)) fs = w -> there pm stat top w -> missing pm stat top fs i = None.
Proof.
  induction w as [|x w IH]; intros fs i Hm Ht; destruct fs as [|f fs]; try discriminate; auto; simpl in Hm; injection Hm as Hf Hm.
  inversion Ht as [|? ? Hx Ht']; subst. simpl in *. rewrite Hx. auto.
Qed.

Lemma look_removed loop pm stat top s a n m b l : known s = a ++ (n, m) :: b -> regs l = map fst (a ++ b) ->
  there pm stat top (a ++ b) -> stat (sub pm top n) = None -> (b = [] -> used s = false /\ work s = UNull) ->
  exists s', look loop pm stat top (Some l) s = Ok (s', UText (sub pm top n)) /\ known s' = a ++ b /\ used s' = true /\
    off s' = length (a ++ b) /\ cnt s' = S (length (a ++ b)).
Proof.
  intros Hk Hr Ht Hn Hb. unfold look.
  assert (Hl : length (files s) = length a + S (length b)) by (rewrite <- known_len, Hk, app_length; reflexivity).
  rewrite map_app in Hr. apply Forall_app in Ht as (Ha & Htb).
  destruct (scan_skip loop pm stat top a l _ 0 (length (files s)) s Hr) as (l1 & R1 & E1); auto; [exists [], ((n, m) :: b); auto|lia|].
  rewrite E1. simpl (0 + length a).
  assert (Hd : map (fun e => (e_name e, e_meta e)) (drop_at (length a) (files s)) = a ++ b).
  { rewrite map_drop_at. fold (known s). rewrite Hk. apply drop_at_mid. }
  assert (Hdl : length (drop_at (length a) (files s)) = length (a ++ b)) by (rewrite <- Hd, map_length; reflexivity).
  destruct b as [|[n2 m2] b].
  - simpl in R1. rewrite scan_end by exact R1. cbn [bind]. destruct (Hb eq_refl) as (U & W).
    unfold finish. rewrite U, W. rewrite firstn_all.
    rewrite (missing_at pm stat top a (n, m) (files s) 0 []) by auto. simpl. eexists. split; [reflexivity|]. simpl.
    split; [exact Hd|]. split; [reflexivity|]. split; [exact Hdl|]. rewrite app_nil_r. simpl in Hl. lia.
  - simpl in R1. destruct (scan_next loop pm stat top l1 (length a) (length (files s)) s n2 (map fst b) R1) as (l2 & R2 & E2).
    rewrite E2. destruct (known_at s a n m _ Hk) as (f & Hf & Fn & Fm). cbn [scan].
    destruct (Nat.leb_spec (length (files s)) (length a)); [lia|]. unfold rd. rewrite Hf. cbn [bind].
    apply Forall_cons_iff in Htb as (H2 & Hb'). simpl in H2. rewrite (name_eqb_neq (e_name f) n2) by congruence.
    rewrite Fn, Hn. cbn [bind]. unfold finish. simpl. eexists. split; [reflexivity|]. simpl.
    split; [exact Hd|]. split; [reflexivity|]. split; [exact Hdl|]. rewrite app_length. simpl in Hl |- *. lia.
Qed.

(* a new file, or nothing new among the files: there is nothing to show *)
Lemma look_added loop pm stat top s a n m b l : known s = a ++ b -> regs l = map fst (a ++ (n, m) :: b) ->
  there pm stat top (a ++ (n, m) :: b) -> ~ In n (map fst (a ++ b)) -> path s = None -> (used s = false -> work s = UNull) ->
  exists s' u, look loop pm stat top (Some l) s = Ok (s', u) /\ (u = UNull \/ u = UEntry n) /\ (b = [] -> u = UNull /\ known s' = known s) /\
    (b <> [] -> u = UEntry n /\ known s' = a ++ b ++ [(firstn 254 n, m)] /\ off s' = S (cnt s')).
Proof.
  intros Hk Hr Ht Hn Hp Hw. unfold look.
  assert (Hl : length (files s) = length a + length b) by (rewrite <- known_len, Hk, app_length; reflexivity).
  rewrite map_app in Hr. simpl in Hr. pose proof Ht as Ht0. apply Forall_app in Ht as (Ha & Ht). inversion Ht as [|? ? Hnn Hb]; subst. simpl in Hnn.
  destruct (scan_skip loop pm stat top a l _ 0 (length (files s)) s Hr) as (l1 & R1 & E1); auto; [exists [], b; auto|lia|].
  rewrite E1. simpl (0 + length a).
  destruct (scan_next loop pm stat top l1 (length a) (length (files s)) s n (map fst b) R1) as (l2 & R2 & E2).
  rewrite E2. cbn [scan]. destruct b as [|[n2 m2] b].
  - destruct (Nat.leb_spec (length (files s)) (length a)); [|simpl in Hl; lia]. cbn [bind]. unfold finish.
    destruct (used s) eqn:U.
    + rewrite Hp. simpl. do 2 eexists. split; [reflexivity|]. split; auto. split; auto. congruence.
    + rewrite (Hw eq_refl). rewrite firstn_all, (missing_none pm stat top a); [|rewrite app_nil_r in Hk; exact Hk|exact Ha].
      do 2 eexists. split; [reflexivity|]. split; auto. split; auto. congruence.
  - destruct (Nat.leb_spec (length (files s)) (length a)); [simpl in Hl; lia|].
    destruct (known_at s a n2 m2 _ Hk) as (f & Hf & Fn & Fm). unfold rd. rewrite Hf. cbn [bind].
    apply Forall_cons_iff in Hb as (H2 & Hb'). simpl in H2. rewrite Fn.
    rewrite (name_eqb_neq n2 n). 2:{ intros ->. apply Hn. rewrite map_app. apply in_or_app. right. left. reflexivity. }
    rewrite H2, Hnn.
    assert (Hx : existsb (fun e => name_eqb n (e_name e)) (skipn (length a) (firstn (length (files s)) (files s))) = false).
    { rewrite firstn_all. apply not_true_iff_false. intros Hx. apply existsb_exists in Hx as (e & He & Hq). apply Hn. rewrite <- Hk.
      unfold known. rewrite map_map. simpl. unfold name_eqb in Hq. destruct (list_eq_dec Z.eq_dec n (e_name e)) as [->|]; [|discriminate].
      apply in_map. clear - He. rewrite <- (firstn_skipn (length a) (files s)). apply in_or_app. auto. }
    rewrite Hx. cbn [negb bind]. unfold finish. simpl. do 2 eexists. split; [reflexivity|]. split; auto.
    split; [intros; discriminate|]. intros _. split; auto. split.
    + unfold known. simpl. rewrite map_app. fold (known s). rewrite Hk, <- app_assoc. reflexivity.
    + simpl. rewrite app_length. simpl. lia.
Qed.

Lemma look_same loop pm stat top s l : regs l = map fst (known s) -> there pm stat top (known s) -> path s = None -> (used s = false -> work s = UNull) ->
  exists s', look loop pm stat top (Some l) s = Ok (s', UNull) /\ known s' = known s /\ used s' = used s /\ work s' = work s /\
    off s' = length (known s) /\ cnt s' = length (known s).
Proof.
  intros Hr Ht Hp Hw. unfold look. rewrite <- (app_nil_r (map fst (known s))) in Hr.
  destruct (scan_skip loop pm stat top (known s) l [] 0 (length (files s)) s Hr) as (l1 & R1 & E1); auto.
  { exists [], []. rewrite app_nil_r. auto. } { rewrite known_len. lia. }
  rewrite E1, scan_end by exact R1. cbn [bind]. unfold finish. rewrite known_len. destruct (used s) eqn:U.
  - rewrite Hp. eexists. split; [reflexivity|]. simpl. auto.
  - rewrite (Hw eq_refl), firstn_all, (missing_none pm stat top (known s)) by auto. eexists. split; [reflexivity|]. simpl. auto.
Qed.
