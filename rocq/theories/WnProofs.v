(* The directory part and the last part of a Windows path. *)
From Verif Require Import Base WnModel.

(* ---- specification: directories ---- *)
(* every byte with whether it separates names: '/', or '\' when the byte before it is not the first half of
   a double-byte character *)
Fixpoint marks (lead : Z -> bool) (prev : option Z) (s : list Z) : list (Z * bool) :=
  match s with
  | [] => []
  | c :: r => (c, (c =? 47)%Z || ((c =? 92)%Z && match prev with Some p => negb (lead p) | None => true end)) :: marks lead (Some c) r
  end.
Definition all (b : bool) (l : list (Z * bool)) : Prop := Forall (fun m => snd m = b) l.
(* directory, separators, last name, trailing separators *)
Definition dir_parts (ms d seps name tail : list (Z * bool)) : Prop :=
  ms = d ++ seps ++ name ++ tail /\ all true seps /\ all false name /\ all true tail /\
  (d = [] \/ exists d' m, d = d' ++ [m] /\ snd m = false) /\
  (name = [] -> d = [] /\ seps = []) /\ (d <> [] -> seps <> []).
Definition dir_answer (d seps name : list (Z * bool)) : list Z :=
  match name, seps, d with
  | [], _, _ => [92%Z]
  | _, [], _ => [46%Z]
  | _, _, [] => [92%Z]
  | _, _, _ => map fst d
  end.

(* ---- lemmas ---- *)
Lemma marks_length lead s : forall p, length (marks lead p s) = length s.
Proof. induction s as [|c r IH]; intros p; cbn; auto. Qed.
Lemma marks_fst lead s : forall p, map fst (marks lead p s) = s.
Proof. induction s as [|c r IH]; intros p; cbn; auto. now rewrite IH. Qed.

Lemma marks_nth lead s : forall p i c b, nth_error (marks lead p s) i = Some (c, b) ->
  nth_error s i = Some c /\
  b = (c =? 47)%Z || ((c =? 92)%Z && match i with 0 => match p with Some q => negb (lead q) | None => true end
                                       | S j => match nth_error s j with Some q => negb (lead q) | None => true end end).
Proof.
  induction s as [|x r IH]; intros p i c b H; [destruct i; discriminate|].
  destruct i as [|i]; cbn in H.
  - injection H as <- <-. auto.
  - apply IH in H. destruct H as (A & B). cbn [nth_error]. split; auto. rewrite B.
    destruct i; reflexivity.
Qed.

Lemma slash_mark lead s i c b : nth_error (marks lead None s) i = Some (c, b) -> i <> 0 \/ c <> BSL -> slash_at lead s i = Ok b.
Proof.
  intros H G. apply marks_nth in H. destruct H as (A & ->). unfold slash_at. rewrite (rd_ok _ _ _ A). cbn [bind].
  unfold SL, BSL in *. destruct (Z.eqb_spec c 47) as [E|E]; auto.
  destruct (Z.eqb_spec c 92) as [E2|E2]; auto. cbn [orb andb].
  destruct i as [|j]; [destruct G; congruence|].
  assert (L : j < length s) by (apply nth_error_Some_lt in A || (assert (S j < length s) by (apply nth_error_Some; congruence); lia)).
  destruct (nth_error s j) as [q|] eqn:Q; [|apply nth_error_None in Q; lia].
  rewrite (rd_ok _ _ _ Q). reflexivity.
Qed.
Lemma slash_first lead s : nth_error s 0 = Some BSL -> slash_at lead s 0 = UB.
Proof. intros H. unfold slash_at. rewrite (rd_ok _ _ _ H). reflexivity. Qed.

Lemma back_run lead s base want n : forall a, base <= a ->
  (forall i, a <= i < a + n -> slash_at lead s i = Ok want) ->
  (a = base \/ slash_at lead s (a - 1) = Ok (negb want)) -> skip_back lead s base want (a + n) = Ok a.
Proof.
  induction n as [|n IH]; intros a B R E.
  - rewrite Nat.add_0_r. destruct a as [|e]; [reflexivity|]. cbn [skip_back].
    destruct (Nat.ltb_spec e base) as [L|L]; auto.
    destruct E as [E|E]; [lia|]. replace (S e - 1) with e in E by lia. rewrite E. cbn [bind].
    destruct want; reflexivity.
  - rewrite Nat.add_succ_r. cbn [skip_back].
    replace (a + n <? base) with false by lia. rewrite (R (a + n)) by lia. cbn [bind].
    rewrite eqb_reflx. apply IH; auto. intros i I. apply R. lia.
Qed.
Lemma base_moves lead s want k : forall r, skip_back lead s 1 want k = Ok r -> 1 < r -> skip_back lead s 0 want k = Ok r.
Proof.
  induction k as [|e IH]; intros r H R; [cbn in H; injection H as <-; lia|].
  cbn [skip_back] in *. change (e <? 0) with false. cbv iota.
  destruct (Nat.ltb_spec e 1) as [L|L]; [injection H as <-; lia|].
  destruct (slash_at lead s e) as [b| | |]; cbn [bind] in *; try discriminate.
  destruct (Bool.eqb b want); auto.
Qed.
Lemma base_ub lead s want k : 1 <= k -> skip_back lead s 1 want k = Ok 1 -> slash_at lead s 0 = UB -> skip_back lead s 0 want k = UB.
Proof.
  induction k as [|e IH]; intros K H E; [lia|].
  cbn [skip_back] in *. change (e <? 0) with false. cbv iota.
  destruct (Nat.ltb_spec e 1) as [L|L].
  - replace e with 0 by lia. now rewrite E.
  - destruct (slash_at lead s e) as [b| | |]; cbn [bind] in *; try discriminate; auto.
    destruct (Bool.eqb b want); [apply IH; auto|]. injection H as H. lia.
Qed.

Lemma tail_run (b : bool) (ms : list (Z * bool)) :
  exists a t, ms = a ++ t /\ all b t /\ (a = [] \/ exists a' m, a = a' ++ [m] /\ snd m = negb b).
Proof.
  induction ms as [|m ms IH] using rev_ind.
  - exists [], []. repeat split; auto. constructor.
  - destruct (Bool.bool_dec (snd m) b) as [E|E].
    + destruct IH as (a & t & -> & A & L). exists a, (t ++ [m]). rewrite app_assoc. repeat split; auto.
      apply Forall_app. split; auto.
    + exists (ms ++ [m]), []. rewrite app_nil_r. repeat split; [constructor|].
      right. exists ms, m. split; auto. destruct (snd m) eqn:?, b; cbn; congruence.
Qed.

Lemma parts_exist ms : exists d seps name tail, dir_parts ms d seps name tail.
Proof.
  destruct (tail_run true ms) as (a & tail & -> & AT & LA).
  destruct (tail_run false a) as (b & name & -> & AN & LB).
  destruct (tail_run true b) as (d & seps & -> & AS & LD).
  exists d, seps, name, tail. unfold dir_parts. rewrite !app_assoc.
  assert (NE : name = [] -> d = [] /\ seps = []).
  { intros ->. rewrite app_nil_r in LA.
    destruct LA as [LA|(a' & m & LA & M)]; [now apply app_eq_nil in LA|].
    destruct LB as [LB|(a2 & m2 & LB & M2)]; [now apply app_eq_nil in LB|].
    rewrite LA in LB. apply app_inj_tail in LB. destruct LB as (_ & ->). cbn in M, M2. congruence. }
  repeat split; auto; try (now apply NE).
  intros ND ->. destruct LD as [LD|(d' & m & LD & M)]; [congruence|].
  rewrite app_nil_r in LB. destruct LB as [LB|(d2 & m2 & LB & M2)]; [congruence|].
  rewrite LD in LB. apply app_inj_tail in LB. destruct LB as (_ & ->). cbn in M, M2. congruence.
Qed.

Lemma nth_app_mid {A} (a b c : list A) i : length a <= i < length a + length b -> nth_error (a ++ b ++ c) i = nth_error b (i - length a).
Proof. intros H. rewrite nth_error_app2 by lia. apply nth_error_app1. lia. Qed.

Lemma all_nth b l i m : all b l -> nth_error l i = Some m -> snd m = b.
Proof. intros A N. eapply Forall_forall in A; [exact A|]. eapply nth_error_In; eauto. Qed.

Lemma at_mark lead s (pre : list (Z * bool)) (SAFE : forall c, nth_error s 0 = Some c -> c = BSL -> pre <> []) i : length pre <= i -> i < length s -> exists c b, nth_error (marks lead None s) i = Some (c, b) /\ slash_at lead s i = Ok b.
Proof.
  intros P L. destruct (nth_error (marks lead None s) i) as [[c b]|] eqn:E.
  - exists c, b. split; auto. eapply slash_mark; eauto. destruct i as [|i]; auto. right. intros ->.
    destruct pre; cbn in P; [|lia].
    apply marks_nth in E. apply (SAFE BSL); auto. apply E.
  - apply nth_error_None in E. rewrite marks_length in E. lia.
Qed.
Lemma len_s lead s (pre d seps name tail : list (Z * bool)) : marks lead None s = pre ++ d ++ seps ++ name ++ tail ->
  length s = length pre + length d + length seps + length name + length tail.
Proof. intros W. rewrite <- (marks_length lead s None), W, !app_length. lia. Qed.

Lemma run_of lead s (pre : list (Z * bool)) (SAFE : forall c, nth_error s 0 = Some c -> c = BSL -> pre <> []) (a b c : list (Z * bool)) x i : marks lead None s = a ++ b ++ c -> all x b -> length pre <= length a ->
  length a <= i < length a + length b -> slash_at lead s i = Ok x.
Proof.
  intros E A P I.
  assert (LS : length s = length a + (length b + length c)) by (rewrite <- (marks_length lead s None), E, !app_length; lia).
  destruct (at_mark lead s pre SAFE i) as (ch & bb & N & SA); [lia|lia|].
  rewrite SA. f_equal. rewrite E, nth_app_mid in N by lia. eapply all_nth in N; eauto.
Qed.
Lemma last_of lead s (pre : list (Z * bool)) (SAFE : forall c, nth_error s 0 = Some c -> c = BSL -> pre <> []) (a c : list (Z * bool)) m x i : marks lead None s = a ++ [m] ++ c -> snd m = x -> length pre <= length a ->
  i = length a -> slash_at lead s i = Ok x.
Proof. intros E X P ->. eapply (run_of lead s pre SAFE a [m] c); eauto; [repeat constructor; auto|cbn; lia]. Qed.


Lemma app_last_inv {A} (a b : list A) : b <> [] -> exists b' m, a ++ b = a ++ b' ++ [m] /\ b = b' ++ [m].
Proof. intros N. destruct (exists_last N) as (b' & m & ->). exists b', m. auto. Qed.

(* what the three loops find *)
Lemma loops lead s pre d seps name tail : marks lead None s = pre ++ d ++ seps ++ name ++ tail ->
  dir_parts (d ++ seps ++ name ++ tail) d seps name tail ->
  (forall c, nth_error s 0 = Some c -> c = BSL -> pre <> []) ->
  let p := length pre in
  skip_back lead s p true (length s) = Ok (p + length d + length seps + length name) /\
  (name <> [] -> skip_back lead s p false (p + length d + length seps + length name) = Ok (p + length d + length seps)) /\
  (name <> [] -> skip_back lead s p true (p + length d + length seps) = Ok (p + length d)).
Proof.
  intros W (_ & AS & AN & AT & LD & NE & DE) SAFE. cbn zeta.
  assert (LS := len_s lead s pre d seps name tail W).
  split; [|split].
  - rewrite LS. apply back_run; [lia| |].
    + intros i I. eapply (run_of lead s pre SAFE (pre ++ d ++ seps ++ name) tail []); rewrite ?app_nil_r, ?app_length; auto; try lia.
      rewrite W, !app_assoc. reflexivity.
    + destruct name as [|x nm] eqn:EN.
      * left. destruct NE as (-> & ->); auto. cbn. lia.
      * right. destruct (exists_last (l := x :: nm) ltac:(discriminate)) as (n' & m & EM).
        eapply (last_of lead s pre SAFE (pre ++ d ++ seps ++ n') tail m).
        -- rewrite W, EM. rewrite <- !app_assoc. reflexivity.
        -- rewrite EM in AN. eapply Forall_elt in AN. exact AN.
        -- rewrite app_length. lia.
        -- rewrite EM. rewrite !app_length. cbn. lia.
  - intros NN. apply back_run; [lia| |].
    + intros i I. eapply (run_of lead s pre SAFE (pre ++ d ++ seps) name tail); rewrite ?app_length; auto; try lia.
      rewrite W, <- !app_assoc. reflexivity.
    + destruct seps as [|x sp] eqn:ES.
      * left. destruct d; [cbn; lia|]. exfalso. apply DE; auto. discriminate.
      * right. destruct (exists_last (l := x :: sp) ltac:(discriminate)) as (n' & m & EM).
        eapply (last_of lead s pre SAFE (pre ++ d ++ n') (name ++ tail) m).
        -- rewrite W, EM. rewrite <- !app_assoc. reflexivity.
        -- rewrite EM in AS. eapply Forall_elt in AS. exact AS.
        -- rewrite app_length. lia.
        -- rewrite EM. rewrite !app_length. cbn. lia.
  - intros NN. apply back_run; [lia| |].
    + intros i I. eapply (run_of lead s pre SAFE (pre ++ d) seps (name ++ tail)); rewrite ?app_length; auto; try lia.
      rewrite W, <- !app_assoc. reflexivity.
    + destruct LD as [->|(d' & m & -> & M)]; [left; cbn; lia|right].
      eapply (last_of lead s pre SAFE (pre ++ d') (seps ++ name ++ tail) m).
      * rewrite W. rewrite <- !app_assoc. reflexivity.
      * exact M.
      * rewrite app_length. lia.
      * rewrite !app_length. cbn. lia.
Qed.

Lemma firstn_marks lead s a b : marks lead None s = a ++ b -> firstn (length a) s = map fst a.
Proof.
  intros E. rewrite <- (marks_fst lead s None) at 1. rewrite E, map_app.
  rewrite firstn_app, map_length, Nat.sub_diag. cbn [firstn]. rewrite app_nil_r.
  apply firstn_all2. rewrite map_length. lia.
Qed.

(* the function, once the part that is skipped is fixed *)
Lemma dirname_parts lead s pre d seps name tail :
  length pre = (if drive s then 2 else 0) -> (drive s && (length s =? 2)) = false -> s <> [] ->
  marks lead None s = pre ++ d ++ seps ++ name ++ tail ->
  dir_parts (d ++ seps ++ name ++ tail) d seps name tail ->
  (forall c, nth_error s 0 = Some c -> c = BSL -> pre <> []) ->
  dirname lead s = Ok (map fst pre ++ dir_answer d seps name, Some (length pre)).
Proof.
  intros LP ND NE W P SAFE. destruct (loops lead s pre d seps name tail W P SAFE) as (L1 & L2 & L3).
  unfold dirname. rewrite ND. replace (length s =? 0) with false by (destruct s; [congruence|reflexivity]).
  rewrite <- LP. rewrite L1. cbn [bind].
  rewrite (firstn_marks lead s pre _ W).
  destruct P as (_ & AS & AN & AT & LD & NM & DE).
  unfold dir_answer. destruct name as [|n0 nr].
  - destruct (NM eq_refl) as (-> & ->). cbn [length]. rewrite !Nat.add_0_r, Nat.leb_refl. reflexivity.
  - replace (length pre + length d + length seps + length (n0 :: nr) <=? length pre) with false by (symmetry; apply Nat.leb_gt; cbn; lia).
    rewrite L2 by discriminate. cbn [bind].
    destruct seps as [|s0 sr].
    + destruct d as [|d0 dr]; [|exfalso; apply DE; auto; discriminate].
      cbn [length]. rewrite !Nat.add_0_r, Nat.leb_refl. reflexivity.
    + replace (length pre + length d + length (s0 :: sr) <=? length pre) with false by (symmetry; apply Nat.leb_gt; cbn; lia).
      rewrite L3 by discriminate. cbn [bind].
      destruct d as [|d0 dr].
      * cbn [length]. rewrite !Nat.add_0_r, Nat.leb_refl. reflexivity.
      * remember (d0 :: dr) as dd. assert (0 < length dd) by (rewrite Heqdd; cbn; lia).
        replace (length pre + length dd <=? length pre) with false by (symmetry; apply Nat.leb_gt; lia).
        rewrite <- app_length. rewrite (firstn_marks lead s (pre ++ dd) ((s0 :: sr) ++ (n0 :: nr) ++ tail)) by (rewrite W; now rewrite <- app_assoc).
        rewrite map_app. rewrite Heqdd. reflexivity.
Qed.

Lemma dir_plain lead s d seps name tail : drive s = false -> s <> [] -> nth_error s 0 <> Some 92%Z ->
  dir_parts (marks lead None s) d seps name tail -> dir_of lead s = Ok (Some (dir_answer d seps name)).
Proof.
  intros D NE H P. assert (W : marks lead None s = d ++ seps ++ name ++ tail) by apply P.
  rewrite W in P. unfold dir_of.
  rewrite (dirname_parts lead s [] d seps name tail); auto.
  - now rewrite D.
  - now rewrite D.
  - intros c C ->. unfold BSL in C. congruence.
Qed.

(* a path that begins with a backslash: undefined exactly when the answer would be the root *)
Lemma dir_backslash lead s d seps name tail : nth_error s 0 = Some 92%Z ->
  dir_parts (marks lead None s) d seps name tail ->
  dir_of lead s = match d with [] => UB | _ => Ok (Some (map fst d)) end.
Proof.
  intros H P. assert (W : marks lead None s = d ++ seps ++ name ++ tail) by apply P.
  assert (D : drive s = false) by (destruct s as [|c [|e r]]; try reflexivity; cbn in H; injection H as ->; reflexivity).
  assert (S0 : slash_at lead s 0 = UB) by (apply slash_first; exact H).
  destruct s as [|c r]; [discriminate|]. cbn [nth_error] in H. injection H as ->.
  cbn [marks] in W. set (h := (92%Z, (92 =? 47)%Z || (92 =? 92)%Z && true)) in W.
  assert (SH : snd h = true) by reflexivity.
  assert (SAFE : forall c, nth_error (92%Z :: r) 0 = Some c -> c = BSL -> [h] <> []) by discriminate.
  cbn [marks] in P. fold h in P.
  destruct P as (W0 & AS & AN & AT & LD & NE & DE).
  unfold dir_of, dirname. rewrite D. cbn [andb]. replace (length (92%Z :: r) =? 0) with false by reflexivity.
  set (s := 92%Z :: r) in *.
  destruct d as [|h' d2].
  - destruct name as [|n0 nr].
    + destruct (NE eq_refl) as (_ & ->). cbn [app] in W.
      destruct tail as [|t0 tl]; [discriminate|]. injection W as <- WT.
      destruct (loops lead s [h] [] [] [] tl) as (L1 & _ & _).
      * cbn [marks app]. unfold s. cbn [marks]. fold h. now rewrite WT.
      * repeat split; auto; try constructor; try congruence. inversion AT; auto.
      * exact SAFE.
      * cbn [length Nat.add] in L1. rewrite base_ub; auto. unfold s. cbn. lia.
    + assert (exists sp, seps = h :: sp) as (sp & ->).
      { destruct seps as [|s0 sp]; [|exists sp; cbn in W; congruence].
        exfalso. cbn in W. injection W as <- _. inversion AN. congruence. }
      cbn [app] in W. injection W as WT.
      destruct (loops lead s [h] [] sp (n0 :: nr) tail) as (L1 & L2 & L3).
      * unfold s. cbn [marks app]. fold h. now rewrite WT.
      * repeat split; auto; try congruence. inversion AS; auto.
      * exact SAFE.
      * cbn [length Nat.add] in L1, L2, L3. specialize (L2 ltac:(discriminate)). specialize (L3 ltac:(discriminate)).
        apply base_moves in L1; [|lia]. cbn [length]. cbn [length] in L1. rewrite L1. cbn [bind].
        replace (S (length sp + S (length nr)) <=? 0) with false by reflexivity.
        destruct sp as [|s1 sp1].
        -- cbn [length Nat.add] in *. rewrite base_ub; auto. lia.
        -- apply base_moves in L2; [|cbn; lia]. rewrite L2. cbn [bind].
           replace (S (length (s1 :: sp1)) <=? 0) with false by reflexivity.
           rewrite base_ub; auto. lia.
  - assert (h' = h) by (cbn in W; congruence). subst h'.
    assert (D2 : d2 <> []).
    { intros ->. destruct LD as [LD|(d' & m & LD & M)]; [discriminate|].
      destruct d' as [|q d']; cbn in LD; [injection LD as <-; congruence|]. injection LD as -> LD. symmetry in LD. apply app_eq_nil in LD. now destruct LD. }
    assert (LP : 0 < length d2) by (destruct d2; [congruence|cbn; lia]).
    assert (NN : name <> []) by (intros N; destruct (NE N); discriminate).
    cbn [app] in W. injection W as WT.
    destruct (loops lead s [h] d2 seps name tail) as (L1 & L2 & L3).
    + unfold s. cbn [marks app]. fold h. now rewrite WT.
    + repeat split; auto; try (intros; exfalso; auto; fail).
      * destruct LD as [LD|(d' & m & LD & M)]; [discriminate|]. right.
        destruct d' as [|q d']; cbn in LD; injection LD as -> LD; [congruence|]. exists d', m. auto.
      * intros _. apply DE. discriminate.
    + exact SAFE.
    + cbn [length] in L1, L2, L3. specialize (L2 NN). specialize (L3 NN).
      apply base_moves in L1; [|lia]. apply base_moves in L2; [|lia]. apply base_moves in L3; [|lia].
      rewrite L1. cbn [bind].
      replace (1 + length d2 + length seps + length name <=? 0) with false by reflexivity.
      rewrite L2. cbn [bind]. replace (1 + length d2 + length seps <=? 0) with false by reflexivity.
      rewrite L3. cbn [bind]. replace (1 + length d2 <=? 0) with false by reflexivity. cbv iota.
      cbn [bind option_map fst snd skipn]. f_equal. f_equal.
      change (1 + length d2) with (length (h :: d2)).
      apply (firstn_marks lead s (h :: d2) (seps ++ name ++ tail)). unfold s. cbn [marks app]. fold h. now rewrite WT.
Qed.

(* a path with a drive: the buffer keeps the drive, the returned string begins after it *)
Lemma dir_drive lead c r d seps name tail : alpha c = true -> r <> [] ->
  dir_parts (marks lead (Some 58%Z) r) d seps name tail ->
  dirname lead (c :: 58%Z :: r) = Ok (c :: 58%Z :: dir_answer d seps name, Some 2) /\
  dir_of lead (c :: 58%Z :: r) = Ok (Some (dir_answer d seps name)).
Proof.
  intros A N P. assert (W : marks lead (Some 58%Z) r = d ++ seps ++ name ++ tail) by apply P. rewrite W in P.
  assert (E : dirname lead (c :: 58%Z :: r) = Ok (c :: 58%Z :: dir_answer d seps name, Some 2)).
  { set (m0 := (c, (c =? 47)%Z || (c =? 92)%Z && true)). set (m1 := (58%Z, (58 =? 47)%Z || (58 =? 92)%Z && negb (lead c))).
    assert (DR : drive (c :: 58%Z :: r) = true) by (cbn [drive]; now rewrite A).
    rewrite (dirname_parts lead (c :: 58%Z :: r) [m0; m1] d seps name tail); auto.
    - now rewrite DR.
    - rewrite DR. destruct r; [congruence|reflexivity].
    - discriminate.
    - cbn [marks app]. now rewrite W.
    - discriminate. }
  split; auto. unfold dir_of. rewrite E. reflexivity.
Qed.
Lemma dir_drive_alone lead c : alpha c = true -> dir_of lead [c; 58%Z] = Ok (Some []).
Proof. intros A. unfold dir_of, dirname. cbn [drive]. rewrite A. reflexivity. Qed.
Lemma dir_empty lead : dir_of lead [] = Ok None.
Proof. reflexivity. Qed.
