(* Specifications and lemmas for the string helpers. *)
From Verif Require Import Base StrModel.

(* ---- Specification ---- *)
(* [n] occurs in [t] at offset [i]. *)
Definition occurs (n t : bytes) (i : nat) : Prop :=
  exists pre post, t = pre ++ n ++ post /\ length pre = i.
Definition first_occ (n t : bytes) (i : nat) : Prop :=
  occurs n t i /\ forall j, j < i -> ~ occurs n t j.
(* Leftmost non-overlapping splitting at delimiter [d]. *)
Inductive splits (d : bytes) : bytes -> list bytes -> Prop :=
| splits_last s : (forall i, ~ occurs d s i) -> splits d s [s]
| splits_more pre post ps :
    first_occ d (pre ++ d ++ post) (length pre) -> splits d post ps ->
    splits d (pre ++ d ++ post) (pre :: ps).
Fixpoint join (d : bytes) (ps : list bytes) : bytes :=
  match ps with
  | [] => []
  | [p] => p
  | p :: r => p ++ d ++ join d r
  end.
Definition nul_free (s : bytes) : Prop := Forall (fun c => c <> 0%Z) s.

(* ---- Occurrences ---- *)
Lemma prefixb_spec n t : prefixb n t = true <-> exists post, t = n ++ post.
Proof.
  revert t; induction n as [|x n IH]; intros t; simpl.
  - split; auto. intros _; now exists t.
  - destruct t as [|y t].
    + split; [discriminate|intros [p H]; discriminate].
    + rewrite andb_true_iff, IH, Z.eqb_eq. split.
      * intros [-> [p ->]]; eauto.
      * intros [p H]; injection H as -> ->; eauto.
Qed.

Lemma occurs_0 n t : occurs n t 0 <-> prefixb n t = true.
Proof.
  rewrite prefixb_spec. split.
  - intros (pre & post & -> & H). destruct pre; [|discriminate]. now exists post.
  - intros [post ->]. exists [], post; auto.
Qed.

Lemma occurs_S n c t i : occurs n (c :: t) (S i) <-> occurs n t i.
Proof.
  split.
  - intros (pre & post & H & L). destruct pre as [|x pre]; [discriminate|].
    injection H as -> ->. exists pre, post; auto.
  - intros (pre & post & -> & L). exists (c :: pre), post; simpl; auto.
Qed.

Lemma occurs_nil_S n i : ~ occurs n [] (S i).
Proof. intros (pre & post & H & L). destruct pre; simpl in *; discriminate. Qed.

Lemma strstr_some n t i : strstr n t = Some i -> first_occ n t i.
Proof.
  revert i; induction t as [|c t IH]; intros i; simpl.
  - destruct (prefixb n []) eqn:E; [|discriminate]. intros [= <-]. split.
    + now apply occurs_0. + intros; lia.
  - destruct (prefixb n (c :: t)) eqn:E.
    + intros [= <-]. split; [now apply occurs_0|intros; lia].
    + destruct (strstr n t) as [k|] eqn:E2; [|discriminate]. intros [= <-].
      destruct (IH k eq_refl) as [H1 H2]. split; [now apply occurs_S|].
      intros [|j] Hj.
      * rewrite occurs_0, E; discriminate.
      * rewrite occurs_S; apply H2; lia.
Qed.

Lemma strstr_none n t : strstr n t = None -> forall i, ~ occurs n t i.
Proof.
  induction t as [|c t IH]; simpl.
  - destruct (prefixb n []) eqn:E; [discriminate|]. intros _ [|i].
    + rewrite occurs_0, E; discriminate.
    + apply occurs_nil_S.
  - destruct (prefixb n (c :: t)) eqn:E; [discriminate|].
    destruct (strstr n t) eqn:E2; [discriminate|]. intros _ [|i].
    + rewrite occurs_0, E; discriminate.
    + rewrite occurs_S; auto.
Qed.

Lemma first_occ_strstr n t i : first_occ n t i -> strstr n t = Some i.
Proof.
  intros [H1 H2]. destruct (strstr n t) as [k|] eqn:E.
  - apply strstr_some in E as [K1 K2]. f_equal.
    destruct (lt_eq_lt_dec k i) as [[L|L]|L]; auto.
    + exfalso; eapply H2; eauto.
    + exfalso; eapply K2; eauto.
  - exfalso; eapply strstr_none; eauto.
Qed.

Lemma no_occ_strstr n t : (forall i, ~ occurs n t i) -> strstr n t = None.
Proof.
  intros H. destruct (strstr n t) as [k|] eqn:E; auto.
  apply strstr_some in E as [K1 _]. exfalso; eapply H; eauto.
Qed.

Lemma occurs_nth n t i :
  occurs n t i <->
  i + length n <= length t /\ forall k, k < length n -> nth_error t (i + k) = nth_error n k.
Proof.
  split.
  - intros (pre & post & -> & <-). rewrite !app_length. split; [lia|].
    intros k Hk. rewrite nth_error_app2 by lia.
    rewrite nth_error_app1 by lia. f_equal; lia.
  - intros [L H]. exists (firstn i t), (skipn (i + length n) t). split.
    + rewrite <- (firstn_skipn i t) at 1. f_equal.
      rewrite <- (firstn_skipn (length n) (skipn i t)) at 1. f_equal.
      * apply nth_error_ext. intros k. rewrite nth_error_firstn, nth_error_skipn.
        destruct (Nat.ltb_spec k (length n)); auto.
        symmetry; now apply nth_error_None.
      * apply nth_error_ext. intros k. rewrite !nth_error_skipn. f_equal; lia.
    + rewrite firstn_length; lia.
Qed.

Lemma occurs_skipn n t p i : p <= length t -> occurs n (skipn p t) i <-> occurs n t (p + i).
Proof.
  intros Hp. rewrite !occurs_nth, skipn_length. split; intros [L H].
  - split; [lia|]. intros k Hk. rewrite <- H by auto. rewrite nth_error_skipn; f_equal; lia.
  - split; [lia|]. intros k Hk. rewrite nth_error_skipn, <- H by auto. f_equal; lia.
Qed.

(* ---- mempos ---- *)
Lemma mp_inner_spec src pat n d e :
  n = length pat - d -> d <= length pat -> e + n <= length src ->
  exists r, mp_inner src pat n d e = Ok r /\
    (r = true <-> forall k, k < n -> nth_error src (e + k) = nth_error pat (d + k)).
Proof.
  revert d e; induction n as [|n IH]; intros d e Hn Hd He; simpl.
  - exists true; split; auto. split; auto. intros _ k Hk; lia.
  - destruct (nth_error pat d) as [m|] eqn:Em.
    2:{ apply nth_error_None in Em; lia. }
    destruct (nth_error src e) as [s|] eqn:Es.
    2:{ apply nth_error_None in Es; lia. }
    rewrite (rd_ok _ _ _ Em), (rd_ok _ _ _ Es); simpl.
    destruct (Z.eqb_spec m s) as [->|Hne].
    + destruct (IH (S d) (S e)) as (r & Hr & Hiff); try lia.
      exists r; split; auto. rewrite Hiff. split; intros H k Hk.
      * destruct k as [|k]; [rewrite !Nat.add_0_r; congruence|].
        rewrite <- !plus_n_Sm. apply (H k); lia.
      * specialize (H (S k)). rewrite <- !plus_n_Sm in H. apply H; lia.
    + exists false; split; auto. split; [discriminate|]. intros H.
      specialize (H 0). rewrite !Nat.add_0_r in H. rewrite Em, Es in H.
      assert (Some s = Some m) by (apply H; lia). congruence.
Qed.

Lemma wraps_id b x : (0 < b -> - 2 ^ (b - 1) <= x < 2 ^ (b - 1) -> wraps b x = x)%Z.
Proof.
  intros Hb Hx. unfold wraps. assert (2 ^ b = 2 * 2 ^ (b - 1))%Z as E.
  { rewrite <- Z.pow_succ_r by lia. f_equal; lia. }
  rewrite Z.mod_small; lia.
Qed.

Lemma mp_outer_spec src pat n c :
  c + n + length pat = length src + 1 -> length pat <= length src ->
  (Z.of_nat (length src) < 2 ^ 31)%Z ->
  (forall j, j < c -> ~ occurs pat src j) ->
  (exists i, mp_outer src pat n c = Ok (Z.of_nat i) /\ first_occ pat src i) \/
  (mp_outer src pat n c = Ok (-1)%Z /\ forall i, ~ occurs pat src i).
Proof.
  revert c; induction n as [|n IH]; intros c Hc Hl Hb Hj; simpl.
  - right; split; auto. intros i Ho. destruct (Nat.lt_ge_cases i c) as [L|L].
    + eapply Hj; eauto.
    + apply occurs_nth in Ho as [Ho _]; lia.
  - destruct (mp_inner_spec src pat (length pat) 0 c) as (r & Hr & Hiff); try lia.
    rewrite Hr; simpl. destruct r.
    + left. exists c. split.
      * rewrite wraps_id; auto; lia.
      * split; auto. apply occurs_nth. split; [lia|]. intros k Hk. apply Hiff; auto.
    + apply IH; auto; try lia. intros j L. destruct (Nat.eq_dec j c) as [->|]; [|apply Hj; lia].
      intros Ho. apply occurs_nth in Ho as [_ Ho].
      assert (false = true) by (apply Hiff; auto). discriminate.
Qed.

Lemma mempos_spec src pat :
  (Z.of_nat (length src) < 2 ^ 31)%Z ->
  (exists i, mempos src pat = Ok (Z.of_nat i) /\ first_occ pat src i) \/
  (mempos src pat = Ok (-1)%Z /\ forall i, ~ occurs pat src i).
Proof.
  intros Hb. unfold mempos. destruct (Nat.ltb_spec (length src) (length pat)).
  - right; split; auto. intros i Ho. apply occurs_nth in Ho as [Ho _]; lia.
  - apply mp_outer_spec; auto; lia.
Qed.

Lemma mempos_empty src : (Z.of_nat (length src) < 2 ^ 31)%Z -> mempos src [] = Ok 0%Z.
Proof.
  intros H. unfold mempos; simpl. rewrite Nat.sub_0_r, Nat.add_1_r. reflexivity.
Qed.

Lemma str_has_spec src pat :
  (Z.of_nat (length src) < 2 ^ 31)%Z ->
  exists b, str_has src pat = Ok b /\ (b = true <-> exists i, occurs pat src i).
Proof.
  intros H. unfold str_has, str_pos.
  destruct (mempos_spec src pat H) as [(i & -> & [Ho _])|(-> & Hn)]; simpl.
  - exists (Z.leb 0 (Z.of_nat i)). split; auto. split; eauto. intros _.
    apply Z.leb_le; lia.
  - exists false. split; auto. split; [discriminate|]. intros [i Hi]. exfalso; eapply Hn; eauto.
Qed.

(* ---- memnstr ---- *)
Lemma memchr_spec buf c off len :
  off + len <= length buf ->
  (exists q, memchr buf c off len = Ok (Some q) /\ off <= q < off + len /\
     nth_error buf q = Some c /\ forall j, off <= j < q -> nth_error buf j <> Some c) \/
  (memchr buf c off len = Ok None /\ forall j, off <= j < off + len -> nth_error buf j <> Some c).
Proof.
  revert off; induction len as [|len IH]; intros off H; simpl.
  - right; split; auto. intros; lia.
  - destruct (nth_error buf off) as [x|] eqn:E; [|apply nth_error_None in E; lia].
    rewrite (rd_ok _ _ _ E); simpl. destruct (Z.eqb_spec x c) as [->|Hne].
    + left. exists off. repeat split; auto; try lia.
    + destruct (IH (S off)) as [(q & -> & L & Q & F)|(-> & F)]; try lia.
      * left. exists q. repeat split; auto; try lia. intros j Hj.
        destruct (Nat.eq_dec j off) as [->|]; [congruence|apply F; lia].
      * right. split; auto. intros j Hj.
        destruct (Nat.eq_dec j off) as [->|]; [congruence|apply F; lia].
Qed.

Lemma memcmp_eq_spec hay needle i p n :
  i + n <= length needle -> p + n <= length hay ->
  exists r, memcmp_eq hay needle i p n = Ok r /\
    (r = true <-> forall k, k < n -> nth_error hay (p + k) = nth_error needle (i + k)).
Proof.
  revert i p; induction n as [|n IH]; intros i p H1 H2; simpl.
  - exists true; split; auto. split; auto. intros; lia.
  - destruct (nth_error needle i) as [m|] eqn:Em; [|apply nth_error_None in Em; lia].
    destruct (nth_error hay p) as [s|] eqn:Es; [|apply nth_error_None in Es; lia].
    rewrite (rd_ok _ _ _ Em), (rd_ok _ _ _ Es); simpl.
    destruct (Z.eqb_spec m s) as [->|Hne].
    + destruct (IH (S i) (S p)) as (r & Hr & Hiff); try lia.
      exists r; split; auto. rewrite Hiff. split; intros H k Hk.
      * destruct k as [|k]; [rewrite !Nat.add_0_r; congruence|].
        rewrite <- !plus_n_Sm. apply (H k); lia.
      * specialize (H (S k)). rewrite <- !plus_n_Sm in H. apply H; lia.
    + exists false; split; auto. split; [discriminate|]. intros H.
      specialize (H 0). rewrite !Nat.add_0_r in H. rewrite Em, Es in H.
      assert (Some s = Some m) by (apply H; lia). congruence.
Qed.

(* next occurrence at or after p *)
Definition next_occ (n t : bytes) (p : nat) (r : option nat) : Prop :=
  match r with
  | Some q => p <= q /\ occurs n t q /\ forall j, p <= j < q -> ~ occurs n t j
  | None => forall j, p <= j -> ~ occurs n t j
  end.

Lemma occurs_head n t i x : nth_error n 0 = Some x -> occurs n t i -> nth_error t i = Some x.
Proof.
  intros Hx Ho. apply occurs_nth in Ho as [_ Ho]. rewrite <- Hx, <- (Ho 0), Nat.add_0_r; auto.
  destruct n; simpl in *; [discriminate|lia].
Qed.

Lemma mn_loop_spec hay needle fuel p ne n0 :
  2 <= length needle -> length needle <= length hay ->
  nth_error needle (length needle - 1) = Some ne -> nth_error needle 0 = Some n0 ->
  length hay < fuel + p ->
  exists r, mn_loop hay needle fuel p ne n0 (length hay - length needle) = Ok r /\
            next_occ needle hay p r.
Proof.
  intros H2 Hl Hne Hn0. revert p; induction fuel as [|fuel IH]; intros p Hf.
  - simpl. destruct (Nat.leb_spec p (length hay - length needle)); [lia|].
    exists None; split; auto. intros j Hj Ho. apply occurs_nth in Ho as [Ho _]; lia.
  - cbn [mn_loop]. destruct (Nat.leb_spec p (length hay - length needle)) as [Hp|Hp].
    2:{ exists None; split; auto. intros j Hj Ho. apply occurs_nth in Ho as [Ho _]; lia. }
    destruct (memchr_spec hay n0 p (length hay - length needle - p + 1)) as [(q & -> & L & Q & F)|(-> & F)].
    { lia. }
    2:{ cbn. exists None; split; auto. intros j Hj Ho.
        pose proof (occurs_head _ _ _ _ Hn0 Ho). apply occurs_nth in Ho as [Ho _].
        apply (F j); auto; lia. }
    cbn [bind].
    assert (Hbefore : forall j, p <= j < q -> ~ occurs needle hay j).
    { intros j Hj Ho. apply (F j); auto; try lia. eapply occurs_head; eauto. }
    assert (Hskip : ~ occurs needle hay q ->
        exists r, mn_loop hay needle fuel (S q) ne n0 (length hay - length needle) = Ok r /\
            next_occ needle hay p r).
    { intros Hno. destruct (IH (S q)) as (r & -> & Hr); [lia|]. exists r; split; auto.
      destruct r as [z|]; simpl in *.
      - destruct Hr as (A & B & C). repeat split; auto; try lia.
        intros j Hj. destruct (lt_eq_lt_dec j q) as [[?| ->]|?]; auto; try (apply Hbefore; lia).
        apply C; lia.
      - intros j Hj. destruct (lt_eq_lt_dec j q) as [[?| ->]|?]; auto; try (apply Hbefore; lia).
        }
    destruct (nth_error hay (q + length needle - 1)) as [l|] eqn:El.
    2:{ apply nth_error_None in El; lia. }
    rewrite (rd_ok _ _ _ El); cbn [bind].
    assert (Hlast : occurs needle hay q -> l = ne).
    { intros Ho. apply occurs_nth in Ho as [_ Ho]. specialize (Ho (length needle - 1)).
      replace (q + (length needle - 1)) with (q + length needle - 1) in Ho by lia.
      rewrite El, Hne in Ho. assert (Some l = Some ne) by (apply Ho; lia). congruence. }
    destruct (Z.eqb_spec l ne) as [->|Hx].
    + destruct (memcmp_eq_spec hay needle 1 (S q) (length needle - 2)) as (m & -> & Hm); try lia.
      cbn [bind]. destruct m.
      * exists (Some q); split; auto. simpl. repeat split; try lia; auto.
        apply occurs_nth. split; [lia|]. intros k Hk.
        destruct k as [|k]. { rewrite Nat.add_0_r; congruence. }
        destruct (Nat.eq_dec (S k) (length needle - 1)) as [E|E].
        -- replace (q + S k) with (q + length needle - 1) by lia. rewrite E; congruence.
        -- destruct Hm as [Hm _]. specialize (Hm eq_refl k).
           replace (S q + k) with (q + S k) in Hm by lia. apply Hm; lia.
      * apply Hskip. intros Ho. apply occurs_nth in Ho as [_ Ho].
        assert (false = true); [|discriminate]. apply Hm. intros k Hk.
        replace (S q + k) with (q + (1 + k)) by lia. apply Ho; lia.
    + apply Hskip. intros Ho. apply Hx; auto.
Qed.

Lemma memnstr_spec hay needle p :
  p <= length hay -> exists r, memnstr hay needle p = Ok r /\ next_occ needle hay p r.
Proof.
  intros Hp. unfold memnstr. destruct (Nat.eqb_spec (length needle) 1) as [E|E].
  - destruct needle as [|x [|? ?]]; simpl in E; try discriminate. simpl.
    destruct (memchr_spec hay x p (length hay - p)) as [(q & -> & L & Q & F)|(-> & F)]; try lia.
    + exists (Some q); split; auto. simpl. repeat split; try lia.
      * apply occurs_nth.
        split; [simpl; lia|]. intros [|k] Hk; simpl in Hk; [|lia]. now rewrite Nat.add_0_r.
      * intros j Hj Ho. apply (F j); auto. eapply occurs_head; eauto. reflexivity.
    + exists None; split; auto. intros j Hj Ho.
      pose proof Ho as Ho'. apply occurs_nth in Ho' as [Ho' _]; simpl in Ho'.
      apply (F j); try lia. eapply occurs_head; eauto; reflexivity.
  - destruct (Nat.eqb_spec (length needle) 0) as [E0|E0].
    + exists (Some p); split; auto. simpl. repeat split; auto; try lia.
      apply occurs_nth; split; [lia|]. intros; lia.
    + destruct (Nat.ltb_spec (length hay - p) (length needle)) as [L|L].
      * exists None; split; auto. intros j Hj Ho. apply occurs_nth in Ho as [Ho _]; lia.
      * destruct (nth_error needle (length needle - 1)) as [ne|] eqn:Ene.
        2:{ apply nth_error_None in Ene; lia. }
        destruct (nth_error needle 0) as [n0|] eqn:En0.
        2:{ apply nth_error_None in En0; lia. }
        rewrite (rd_ok _ _ _ Ene), (rd_ok _ _ _ En0); cbn [bind].
        apply mn_loop_spec; auto; lia.
Qed.

(* ---- splits ---- *)
Lemma splits_exists d s : d <> [] -> exists ps, splits d s ps.
Proof.
  intros Hd. remember (length s) as n eqn:En. assert (length s <= n) as H by lia. clear En.
  revert s H; induction n as [|n IH]; intros s H.
  - destruct s; [|simpl in H; lia]. exists [[]]. constructor. intros i Ho.
    apply occurs_nth in Ho as [Ho _]. destruct d; simpl in *; [congruence|lia].
  - destruct (strstr d s) as [k|] eqn:E.
    + apply strstr_some in E. pose proof E as ((pre & post & -> & <-) & _).
      destruct (IH post) as [ps Hps].
      { rewrite !app_length in H. destruct d; [congruence|simpl in *; lia]. }
      exists (pre :: ps). now constructor.
    + exists [s]. constructor. now apply strstr_none.
Qed.

Lemma splits_nonempty d s ps : splits d s ps -> ps <> [].
Proof. destruct 1; discriminate. Qed.

Lemma join_cons d p ps : ps <> [] -> join d (p :: ps) = p ++ d ++ join d ps.
Proof. destruct ps; [congruence|reflexivity]. Qed.

Lemma splits_join d s ps : splits d s ps -> join d ps = s.
Proof.
  induction 1; auto. rewrite join_cons by (eapply splits_nonempty; eauto). congruence.
Qed.

Lemma splits_parts d s ps : d <> [] -> splits d s ps -> Forall (fun p => forall i, ~ occurs d p i) ps.
Proof.
  intros Hd. induction 1 as [s H|pre post ps [H1 H2] Hs IH]; constructor; auto.
  intros i (a & b & -> & <-). apply (H2 (length a)).
  - rewrite !app_length. destruct d; [congruence|simpl; lia].
  - exists a, (b ++ d ++ post). rewrite <- !app_assoc. auto.
Qed.

Lemma splits_prefix d post ps :
  splits d (d ++ post) ps -> exists ps', ps = [] :: ps' /\ splits d post ps'.
Proof.
  intros H. inversion H as [s Hn E|pre post' ps' [H1 H2] Hs E]; subst.
  - exfalso. apply (Hn 0). exists [], post; auto.
  - destruct pre as [|c pre].
    + simpl in *. apply app_inv_head in E; subst. eauto.
    + exfalso. apply (H2 0); [simpl; lia|]. exists [], post; split; auto.
Qed.

Lemma splits_step d c t ps :
  prefixb d (c :: t) = false -> splits d (c :: t) ps ->
  exists p r, ps = (c :: p) :: r /\ splits d t (p :: r).
Proof.
  intros Hp H. inversion H as [s Hn E|pre post ps' [H1 H2] Hs E]; subst.
  - exists t, []. split; auto. constructor. intros i Ho. apply (Hn (S i)). now apply occurs_S.
  - destruct pre as [|x pre].
    + exfalso. simpl in *. rewrite E in H1.
      apply occurs_0 in H1. congruence.
    + simpl in E. injection E as -> <-. exists pre, ps'. split; auto. constructor; auto.
      split.
      * exists pre, post; auto.
      * intros j Hj Ho. apply (H2 (S j)); [simpl; lia|]. simpl. now apply occurs_S.
Qed.

Lemma splits_nil d ps : d <> [] -> splits d [] ps -> ps = [[]].
Proof.
  intros Hd H. inversion H as [s Hn E|pre post ps' _ _ E]; subst; auto.
  destruct pre, d; simpl in *; congruence.
Qed.

Lemma splits_det d s ps1 ps2 : splits d s ps1 -> splits d s ps2 -> ps1 = ps2.
Proof.
  intros H; revert ps2. induction H as [s H|pre post ps H Hs IH]; intros ps2 H2.
  - inversion H2 as [|pre post ps [K _] Hs]; subst; auto. exfalso; eapply H; eauto.
  - inversion H2 as [s Hn E|pre' post' ps' K Hs' E]; subst.
    + exfalso. destruct H as [H _]. eapply Hn; eauto.
    + assert (length pre' = length pre).
      { rewrite E in K. apply first_occ_strstr in K. apply first_occ_strstr in H. congruence. }
      assert (pre' = pre /\ d ++ post' = d ++ post) as [-> E2].
      { clear -E H0. revert pre' E H0. induction pre as [|x pre IH]; intros [|y pre'] E L; simpl in *;
          try discriminate; auto. injection E as -> E. destruct (IH pre' E); auto. subst; auto. }
      apply app_inv_head in E2 as ->. f_equal; auto.
Qed.

Lemma splits_count_le d s ps : d <> [] -> splits d s ps -> length ps <= S (length s).
Proof.
  intros Hd. induction 1; simpl; try lia. rewrite !app_length. destruct d; [congruence|simpl; lia].
Qed.

(* ---- subcount ---- *)
Lemma sc_loop_spec hay needle fuel p c ps :
  needle <> [] -> p <= length hay -> length hay < fuel + p ->
  splits needle (skipn p hay) ps ->
  sc_loop hay needle fuel p c = Ok (c + length ps - 1).
Proof.
  intros Hn. revert p c ps; induction fuel as [|fuel IH]; intros p c ps Hp Hf Hs; [lia|].
  cbn [sc_loop]. destruct (memnstr_spec hay needle p Hp) as (r & -> & Hr). cbn [bind].
  destruct r as [q|]; simpl in Hr.
  - destruct Hr as (A & B & C).
    assert (Hfo : first_occ needle (skipn p hay) (q - p)).
    { split.
      - apply occurs_skipn; auto. now replace (p + (q - p)) with q by lia.
      - intros j Hj Ho. apply occurs_skipn in Ho; auto. eapply C; eauto. lia. }
    inversion Hs as [s Hno E|pre post ps' Hfo' Hs' E]; subst.
    + exfalso. destruct Hfo as [Hfo _]. eapply Hno; eauto.
    + rewrite <- E in Hfo. apply first_occ_strstr in Hfo'. apply first_occ_strstr in Hfo.
      assert (q - p = length pre) by congruence.
      rewrite (IH (q + length needle) (S c) ps').
      * f_equal. simpl. assert (length ps' <> 0). { apply splits_nonempty in Hs'. destruct ps'; simpl; congruence. } lia.
      * apply occurs_nth in B as [B _]; lia.
      * destruct needle; [congruence|simpl; lia].
      * replace (skipn (q + length needle) hay) with post; auto.
        replace (q + length needle) with ((length pre + length needle) + p) by lia.
        rewrite <- skipn_skipn, <- E.
        rewrite app_assoc, <- app_length. rewrite skipn_app, Nat.sub_diag, skipn_all. reflexivity.
  - inversion Hs as [s Hno E|pre post ps' [Ho _] Hs' E]; subst.
    + f_equal; simpl; lia.
    + exfalso. rewrite E in Ho. apply occurs_skipn in Ho; auto. eapply Hr; [|eauto]. lia.
Qed.

Lemma subcount_spec hay needle ps :
  needle <> [] -> splits needle hay ps -> subcount hay needle = Ok (length ps - 1).
Proof.
  intros Hn Hs. unfold subcount. destruct needle as [|x n]; [congruence|].
  cbn [length Nat.eqb]. rewrite (sc_loop_spec hay (x :: n) _ 0 0 ps); auto; lia.
Qed.

(* ---- split ---- *)
Lemma until_nul_app s r : nul_free s -> until_nul (s ++ 0%Z :: r) = s.
Proof.
  induction 1 as [|c s Hc Hs IH]; simpl; auto.
  destruct (Z.eqb_spec c 0); [congruence|]. now rewrite IH.
Qed.

Lemma cstr_app L s r : nul_free s -> cstr (L ++ s ++ 0%Z :: r) (length L) = s.
Proof.
  intros H. unfold cstr. rewrite skipn_app, skipn_all, Nat.sub_diag. simpl. now apply until_nul_app.
Qed.

Lemma sp_count_spec d fuel s nb ps :
  d <> [] -> length s <= fuel -> splits d s ps -> sp_count d fuel s nb = Ok (nb + length ps - 1).
Proof.
  intros Hd. revert s nb ps; induction fuel as [|fuel IH]; intros s nb ps Hf Hs.
  - destruct s; [|simpl in Hf; lia]. apply splits_nil in Hs; subst; auto.
    simpl. destruct d; [congruence|]. simpl. f_equal; lia.
  - inversion Hs as [s' Hno E|pre post ps' Hfo Hs' E]; subst.
    + cbn [sp_count]. rewrite no_occ_strstr by auto. simpl. f_equal; lia.
    + cbn [sp_count]. rewrite (first_occ_strstr _ _ _ Hfo).
      replace (skipn (length pre + length d) (pre ++ d ++ post)) with post.
      2:{ rewrite app_assoc, <- app_length, skipn_app, Nat.sub_diag, skipn_all. reflexivity. }
      rewrite (IH post (S nb) ps'); auto.
      * f_equal. simpl. apply splits_nonempty in Hs'. destruct ps'; simpl; [congruence|lia].
      * rewrite !app_length in Hf. destruct d; [congruence|simpl in *; lia].
Qed.

Lemma nul_free_app a b : nul_free (a ++ b) <-> nul_free a /\ nul_free b.
Proof. apply Forall_app. Qed.

Lemma sp_cut_spec d fuel L s ptrs ps :
  d <> [] -> nul_free s -> length s <= fuel -> splits d s ps ->
  exists buf' offs,
    sp_cut d fuel (L ++ s ++ [0%Z]) (length L) ptrs = Ok (buf', ptrs ++ offs) /\
    firstn (length L) buf' = L /\
    map (cstr buf') (length L :: offs) = ps.
Proof.
  intros Hd. revert L s ptrs ps; induction fuel as [|fuel IH]; intros L s ptrs ps Hnf Hf Hs.
  - destruct s; [|simpl in Hf; lia]. apply splits_nil in Hs; subst; auto.
    exists (L ++ [0%Z]), []. cbn [sp_cut].
    change (L ++ [] ++ [0%Z]) with (L ++ [] ++ 0%Z :: []). rewrite cstr_app by constructor.
    destruct d; [congruence|]. simpl. rewrite app_nil_r. repeat split.
    + rewrite firstn_app, firstn_all, Nat.sub_diag. simpl. apply app_nil_r.
    + f_equal. apply (cstr_app L [] []). constructor.
  - cbn [sp_cut]. rewrite cstr_app by auto.
    inversion Hs as [s' Hno E|pre post ps' Hfo Hs' E]; subst.
    + rewrite no_occ_strstr by auto. exists (L ++ s ++ [0%Z]), []. rewrite app_nil_r. repeat split.
      * rewrite firstn_app, firstn_all, Nat.sub_diag. simpl. apply app_nil_r.
      * simpl. rewrite cstr_app by auto. reflexivity.
    + rewrite (first_occ_strstr _ _ _ Hfo).
      apply nul_free_app in Hnf as [Hpre Hnf]. apply nul_free_app in Hnf as [Hdf Hpost].
      destruct d as [|d0 d']; [congruence|].
      rewrite wr_ok by (rewrite !app_length; simpl; lia). cbn [bind].
      set (L' := L ++ pre ++ 0%Z :: d').
      assert (EL : length L' = length L + length pre + length (d0 :: d')).
      { unfold L'. rewrite !app_length. simpl. lia. }
      assert (Ebuf : set_nth (length L + length pre) 0%Z (L ++ (pre ++ (d0 :: d') ++ post) ++ [0%Z])
                     = L' ++ post ++ [0%Z]).
      { rewrite set_nth_app_r by lia. unfold L'. rewrite <- !app_assoc. f_equal.
        replace (length L + length pre - length L) with (length pre) by lia.
        rewrite set_nth_app_r by lia. rewrite Nat.sub_diag. simpl. reflexivity. }
      rewrite Ebuf. rewrite <- EL.
      destruct (IH L' post (ptrs ++ [length L']) ps') as (buf' & offs & Hrun & Hfirst & Hmap); auto.
      { rewrite !app_length in Hf; simpl in *; lia. }
      rewrite Hrun. exists buf', (length L' :: offs). rewrite <- app_assoc. repeat split.
      * rewrite <- (firstn_skipn (length L') buf'), Hfirst. unfold L'. rewrite <- !app_assoc.
        rewrite firstn_app, firstn_all, Nat.sub_diag. simpl. apply app_nil_r.
      * cbn [map]. f_equal; auto.
        rewrite <- (firstn_skipn (length L') buf'), Hfirst. unfold L'. rewrite <- !app_assoc. simpl.
        now apply cstr_app.
Qed.

Lemma str_split_spec d s ps :
  d <> [] -> s <> [] -> nul_free s -> splits d s ps ->
  exists r, str_split d s = Ok (Some r) /\ words r = ps /\ snd r = length ps.
Proof.
  intros Hd Hne Hnf Hs. unfold str_split.
  assert (Nat.eqb (length s) 0 = false) as -> by (destruct s; [congruence|reflexivity]).
  rewrite (sp_count_spec d (S (length s)) s 1 ps) by auto. cbn [bind].
  pose proof (splits_nonempty _ _ _ Hs) as Hpsn.
  destruct ps as [|p0 ps]; [congruence|]. replace (1 + length (p0 :: ps) - 1) with (S (length ps)) by (simpl; lia).
  destruct (sp_cut_spec d (S (length s)) [] s [0] (p0 :: ps)) as (buf' & offs & Hrun & _ & Hmap); auto.
  change (length (@nil Z)) with 0 in *. change ([] ++ s ++ [0%Z]) with (s ++ [0%Z]) in Hrun.
  destruct (Nat.ltb_spec 1 (S (length ps))) as [L|L].
  - rewrite Hrun. cbn [bind app].
    assert (length offs = length ps).
    { apply (f_equal (@length _)) in Hmap. rewrite map_length in Hmap. simpl in Hmap. lia. }
    destruct (Nat.leb_spec (length (0 :: offs) + 1) (S (length ps) + 1)) as [Q|Q]; [|simpl in Q; lia].
    exists (buf', 0 :: offs, S (length ps)). simpl. repeat split; auto.
  - destruct ps; [|simpl in L; lia]. cbn [bind length]. simpl Nat.leb.
    exists (s ++ [0%Z], [0], 1). repeat split; auto.
    simpl. f_equal. inversion Hs; subst.
    + apply (cstr_app [] p0 []). auto.
    + match goal with H : splits _ _ [] |- _ => apply splits_nonempty in H; congruence end.
Qed.

(* ---- swap ---- *)
Lemma emit_ok size out c : length out < size -> emit size out c = Ok (out ++ [c]).
Proof. intros H. unfold emit. now apply Nat.ltb_lt in H as ->. Qed.

Lemma emits_ok size out cs : length out + length cs <= size -> emits size out cs = Ok (out ++ cs).
Proof.
  revert out; induction cs as [|c cs IH]; intros out H; simpl in *.
  - now rewrite app_nil_r.
  - rewrite emit_ok by lia. cbn [bind]. rewrite IH by (rewrite app_length; simpl; lia).
    now rewrite <- app_assoc.
Qed.

Lemma skipn_len_app {A} (a b : list A) : skipn (length a) (a ++ b) = b.
Proof. now rewrite skipn_app, Nat.sub_diag, skipn_all. Qed.

Lemma sw_count_spec n fuel s i cnt ps :
  n <> [] -> length s <= fuel -> splits n s ps ->
  sw_count n fuel s i cnt = Ok (i + length s, cnt + length ps - 1).
Proof.
  intros Hn. revert s i cnt ps; induction fuel as [|fuel IH]; intros s i cnt ps Hf Hs.
  - destruct s; [|simpl in Hf; lia]. apply splits_nil in Hs; subst; auto.
    simpl. f_equal; f_equal; lia.
  - destruct s as [|c t].
    + apply splits_nil in Hs; subst; auto. simpl. f_equal; f_equal; lia.
    + cbn [sw_count]. destruct (prefixb n (c :: t)) eqn:E.
      * apply prefixb_spec in E as [post E]. rewrite E in *. rewrite skipn_len_app.
        apply splits_prefix in Hs as (ps' & -> & Hs').
        rewrite (IH post _ _ ps'); auto.
        -- pose proof (splits_nonempty _ _ _ Hs') as Hq. destruct ps'; [now elim Hq|].
           rewrite app_length. simpl. f_equal; f_equal; lia.
        -- rewrite app_length in Hf. destruct n; [congruence|simpl in *; lia].
      * apply splits_step in Hs as (p & r & -> & Hs'); auto.
        rewrite (IH t _ _ _ ltac:(simpl in *; lia) Hs'). simpl. f_equal; f_equal; lia.
Qed.

Lemma sw_copy_spec n w fuel size s out ps :
  n <> [] -> length s <= fuel -> splits n s ps ->
  length out + length (join w ps) <= size ->
  sw_copy n w fuel size s out = Ok (out ++ join w ps).
Proof.
  intros Hn. revert s out ps; induction fuel as [|fuel IH]; intros s out ps Hf Hs Hb.
  - destruct s; [|simpl in Hf; lia]. apply splits_nil in Hs; subst; auto.
    simpl. now rewrite app_nil_r.
  - destruct s as [|c t].
    + apply splits_nil in Hs; subst; auto. simpl. now rewrite app_nil_r.
    + cbn [sw_copy]. destruct (prefixb n (c :: t)) eqn:E.
      * apply prefixb_spec in E as [post E]. rewrite E in *. rewrite skipn_len_app.
        apply splits_prefix in Hs as (ps' & -> & Hs').
        pose proof (splits_nonempty _ _ _ Hs') as Hp.
        rewrite join_cons in * by auto. simpl in Hb |- *. rewrite app_length in Hb.
        rewrite emits_ok by lia. cbn [bind]. rewrite (IH post _ ps'); auto.
        -- now rewrite <- app_assoc.
        -- rewrite app_length in Hf. destruct n; [congruence|simpl in *; lia].
        -- rewrite app_length; lia.
      * apply splits_step in Hs as (p & r & -> & Hs'); auto.
        assert (EJ : join w ((c :: p) :: r) = c :: join w (p :: r)) by (destruct r; reflexivity).
        rewrite EJ in *. simpl in Hb.
        rewrite emit_ok by lia. cbn [bind].
        rewrite (IH t _ _ ltac:(simpl in *; lia) Hs').
        -- now rewrite <- app_assoc.
        -- rewrite app_length; simpl; lia.
Qed.

Lemma join_length_rel d w ps : ps <> [] ->
  (Z.of_nat (length (join w ps)) =
   Z.of_nat (length (join d ps)) + (Z.of_nat (length ps) - 1) * (Z.of_nat (length w) - Z.of_nat (length d)))%Z.
Proof.
  induction ps as [|p ps IH]; intros H; [congruence|].
  destruct ps as [|q ps]; [simpl; lia|].
  rewrite (join_cons w), (join_cons d) by discriminate. rewrite !app_length.
  cbn [length] in IH |- *. specialize (IH ltac:(discriminate)).
  rewrite !Nat2Z.inj_add, IH, !Nat2Z.inj_succ. unfold Z.succ; ring.
Qed.

Lemma str_swap_spec needle w s ps :
  needle <> [] -> splits needle s ps ->
  (Z.of_nat (length (join w ps)) + 1 < 2 ^ 64)%Z ->
  str_swap needle w s = Ok (if Nat.eqb (length ps) 1 then None else Some (join w ps ++ [0%Z])).
Proof.
  intros Hn Hs Hb. unfold str_swap. rewrite (sw_count_spec needle _ s 0 0 ps) by (auto; lia).
  cbn [bind]. pose proof (splits_nonempty _ _ _ Hs) as Hp.
  destruct ps as [|p ps]; [congruence|]. cbn [length].
  replace (0 + S (length ps) - 1) with (length ps) by lia.
  change (Nat.eqb (S (length ps)) 1) with (Nat.eqb (length ps) 0).
  destruct (Nat.eqb_spec (length ps) 0) as [E|E]; auto.
  match goal with |- context [wrapu 64 ?x] => set (z := x) end.
  assert (Hz : wrapu 64 z = (Z.of_nat (length (join w (p :: ps))) + 1)%Z).
  { unfold wrapu, z. pose proof (join_length_rel needle w (p :: ps) Hp) as J.
    rewrite (splits_join _ _ _ Hs) in J. cbn [length] in J.
    replace (Z.of_nat (S (length ps)) - 1)%Z with (Z.of_nat (length ps)) in J by lia.
    change (0 + length s) with (length s). rewrite <- J. apply Z.mod_small; lia. }
  rewrite Hz. clear z Hz.
  set (size := align2 _).
  assert (length (join w (p :: ps)) + 1 <= size).
  { unfold size, align2. lia. }
  rewrite (sw_copy_spec needle w _ size s [] (p :: ps)); auto.
  2:{ change (length (@nil Z)) with 0; lia. }
  cbn [bind app]. rewrite emit_ok by lia. reflexivity.
Qed.
