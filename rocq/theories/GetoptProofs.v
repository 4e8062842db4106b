(* Specification and proofs for GetoptModel. *)
From Coq Require Import String Ascii.
From Verif Require Import Base StrModel StrProofs GetoptModel.
Local Close Scope string_scope.

(* ---- specification ---- *)
Definition no_eq (a : bytes) : Prop := ~ In 61%Z a.
(* the argument names the flag: exactly, or as flag=... when single *)
Definition names (single : bool) (f a : bytes) : Prop :=
  a = f \/ (single = true /\ no_eq f /\ exists v, a = f ++ EQ ++ v).
(* the argument occurs somewhere inside the help text *)
Definition help_like (a : bytes) : Prop := exists i, occurs a HELP i.
(* text between the first and the second = *)
Definition value_of (a v : bytes) : Prop := exists p t, a = p ++ EQ ++ v ++ t /\ no_eq p /\ no_eq v /\ (t = [] \/ exists t', t = 61%Z :: t').
Definition gives (single : bool) (a : bytes) (tl : list bytes) (o : option bytes) : Prop :=
  match single with
  | false => o = hd_error tl
  | true => (no_eq a /\ o = Some a) \/ (exists v, value_of a v /\ o = Some v)
  end.
(* arguments as the system passes them *)
Definition arg_ok (a : bytes) : Prop := nul_free a /\ (Z.of_nat (length a) < 2 ^ 31)%Z.

(* ---- proofs ---- *)
Lemma bytes_eqb_spec a : forall b, bytes_eqb a b = true <-> a = b.
Proof.
  induction a as [|x a IH]; intros [|y b]; cbn; try (split; [discriminate|discriminate]); [tauto|].
  rewrite andb_true_iff, Z.eqb_eq, IH. split; [intros [-> ->]; reflexivity|intros [= -> ->]; auto].
Qed.
Lemma occ_eq_in a : (exists i, occurs EQ a i) <-> In 61%Z a.
Proof.
  split.
  - intros (i & p & q & -> & _). apply in_app_iff. right. now left.
  - intros H. apply in_split in H. destruct H as (p & q & ->). exists (length p), p, q. auto.
Qed.
Lemma has_eq_spec a : arg_ok a -> exists b, str_has a EQ = Ok b /\ (b = true <-> In 61%Z a).
Proof.
  intros [_ L]. destruct (str_has_spec a EQ L) as (b & E & S). exists b. split; [exact E|]. now rewrite S, occ_eq_in.
Qed.
Lemma help_spec a : exists b, str_has HELP a = Ok b /\ (b = true <-> help_like a).
Proof. apply str_has_spec. vm_compute. reflexivity. Qed.

Lemma split_eq a : arg_ok a -> In 61%Z a -> exists r p v ps, str_split EQ a = Ok (Some r) /\ words r = p :: v :: ps /\ no_eq p /\ value_of a v /\ exists w, a = p ++ EQ ++ w.
Proof.
  intros [N _] I. assert (D : EQ <> []) by discriminate.
  assert (NE : a <> []) by (intros ->; destruct I).
  destruct (splits_exists EQ a D) as [ps S].
  destruct (str_split_spec EQ a ps D NE N S) as (r & E & W & _).
  assert (exists wr, words r = wr /\ wr = ps) as (wr & WR & ->) by eauto. clear W. rename WR into W.
  assert (NOQ : forall s, (forall i, ~ occurs EQ s i) -> no_eq s).
  { intros s H K. apply occ_eq_in in K. destruct K as [i K]. exact (H i K). }
  pose proof (splits_parts EQ a ps D S) as FA.
  revert W. inversion S as [s H|pre post ps' H S']; subst; intros W.
  - exfalso. apply (NOQ a H I).
  - pose proof (Forall_inv FA) as HP. pose proof (Forall_inv_tail FA) as FA'. cbn beta in HP. destruct ps' as [|v ps'']; [now apply splits_nonempty in S'|].
    pose proof (Forall_inv FA') as HV. cbn beta in HV.
    exists r, pre, v, ps''. split; [exact E|]. split; [exact W|]. split; [auto|]. split; [|eauto].
    inversion S' as [s HH|pre' post' ps3 HH S3]; subst.
    + exists pre, []. rewrite app_nil_r. auto 6.
    + exists pre, (EQ ++ post'). split; [reflexivity|]. split; [auto|]. split; [auto|]. right. now exists post'.
Qed.

Lemma prefix_eq_unique p w f v : no_eq p -> no_eq f -> p ++ EQ ++ w = f ++ EQ ++ v -> p = f.
Proof.
  revert f; induction p as [|x p IH]; intros f NP NF E.
  - destruct f as [|y f]; [reflexivity|]. cbn in E. injection E as <- _. exfalso; apply NF; now left.
  - destruct f as [|y f]; cbn in E.
    + injection E as -> _. exfalso; apply NP; now left.
    + injection E as -> E. f_equal. apply IH; [intros K; apply NP; now right|intros K; apply NF; now right|exact E].
Qed.

(* one argument: either it names the flag and its value is returned, or the scan stops at help, or goes on *)
Lemma scan_step s f single i a tl : arg_ok a ->
  (names single f a /\ exists o, gives single a tl o /\ scan s (Some f) single i (a :: tl) = Ok (Some (with_found s o (i + (if single then 1 else 2))))) \/
  (~ names single f a /\ help_like a /\ scan s (Some f) single i (a :: tl) = Ok None) \/
  (~ names single f a /\ ~ help_like a /\ scan s (Some f) single i (a :: tl) = scan s (Some f) single (S i) tl).
Proof.
  intros A. cbn [scan]. destruct (has_eq_spec a A) as (b & -> & B). cbn [bind].
  destruct (help_spec a) as (h & HH & HS).
  assert (REST : ~ names single f a -> (help_like a /\ (do h <- str_has HELP a; if h then Ok None else scan s (Some f) single (S i) tl) = Ok None) \/
    (~ help_like a /\ (do h <- str_has HELP a; if h then Ok None else scan s (Some f) single (S i) tl) = scan s (Some f) single (S i) tl)).
  { intros _. rewrite HH. cbn [bind]. destruct h.
    - left. split; [now apply HS|reflexivity].
    - right. split; [intros K; apply HS in K; discriminate|reflexivity]. }
  cbn [str_is]. destruct single; cbn [andb].
  - destruct b.
    + assert (I : In 61%Z a) by now apply B.
      destruct (split_eq a A I) as (r & p & v & ps & -> & W & NP & V & (w & AW)). cbn [bind]. rewrite W. cbn [hd nth_error].
      destruct (bytes_eqb a f || bytes_eqb p f) eqn:M.
      * left. split.
        -- apply orb_true_iff in M. destruct M as [M|M]; apply bytes_eqb_spec in M; [now left|]. subst p. right. eauto.
        -- exists (Some v). split; [right; eauto|reflexivity].
      * apply orb_false_iff in M. destruct M as [M1 M2].
        assert (NN : ~ names true f a).
        { intros [K|(_ & NF & v' & K)].
          - apply bytes_eqb_spec in K. congruence.
          - rewrite AW in K. apply prefix_eq_unique in K; [|assumption|assumption]. apply bytes_eqb_spec in K. congruence. }
        destruct (REST NN) as [[H E]|[H E]]; rewrite E; auto.
    + cbn [bind]. rewrite orb_false_r.
      assert (NE : no_eq a) by (intros K; apply B in K; discriminate).
      destruct (bytes_eqb a f) eqn:M.
      * apply bytes_eqb_spec in M. left. split; [now left|]. exists (Some a). split; [left; auto|reflexivity].
      * assert (NN : ~ names true f a).
        { intros [K|(_ & NF & v' & K)]; [apply bytes_eqb_spec in K; congruence|].
          apply NE. rewrite K. apply in_app_iff. right. now left. }
        destruct (REST NN) as [[H E]|[H E]]; rewrite E; auto.
  - cbn [bind]. rewrite orb_false_r. destruct (bytes_eqb a f) eqn:M.
    + apply bytes_eqb_spec in M. left. split; [now left|]. exists (hd_error tl). split; reflexivity.
    + assert (NN : ~ names false f a).
      { intros [K|(K & _)]; [apply bytes_eqb_spec in K; congruence|discriminate]. }
      destruct (REST NN) as [[H E]|[H E]]; rewrite E; auto.
Qed.

Lemma scan_found s f single skipped : forall i a tl, Forall arg_ok skipped -> arg_ok a ->
  Forall (fun b => ~ names single f b /\ ~ help_like b) skipped -> names single f a ->
  exists o, gives single a tl o /\
    scan s (Some f) single i (skipped ++ a :: tl) = Ok (Some (with_found s o (i + length skipped + (if single then 1 else 2)))).
Proof.
  induction skipped as [|x sk IH]; intros i a tl OK A NS NM; cbn [app length].
  - rewrite Nat.add_0_r. destruct (scan_step s f single i a tl A) as [[_ H]|[[K _]|[K _]]]; [exact H|contradiction|contradiction].
  - inversion OK; inversion NS as [|? ? [N1 N2] NS']; subst.
    destruct (scan_step s f single i x (sk ++ a :: tl)) as [[K _]|[(_ & K & _)|(_ & _ & E)]]; [assumption|contradiction|contradiction|].
    destruct (IH (S i) a tl) as (o & G & R); try assumption. exists o. split; [exact G|]. rewrite E, R. do 3 f_equal. lia.
Qed.

Lemma scan_absent s f single : forall l i, Forall arg_ok l -> Forall (fun b => ~ names single f b) l -> scan s (Some f) single i l = Ok None.
Proof.
  induction l as [|x l IH]; intros i OK NS; [reflexivity|]. inversion OK; inversion NS; subst.
  destruct (scan_step s f single i x l) as [[K _]|[(_ & K & E)|(_ & _ & E)]]; [assumption|contradiction|exact E|]. rewrite E. now apply IH.
Qed.
Lemma scan_help s f single skipped : forall i a tl, Forall arg_ok skipped -> arg_ok a ->
  Forall (fun b => ~ names single f b) skipped -> ~ names single f a -> help_like a ->
  scan s (Some f) single i (skipped ++ a :: tl) = Ok None.
Proof.
  induction skipped as [|x sk IH]; intros i a tl OK A NS NM HL; cbn [app].
  - destruct (scan_step s f single i a tl A) as [[K _]|[(_ & K & E)|(_ & K & E)]]; [contradiction|exact E|contradiction].
  - inversion OK; inversion NS; subst.
    destruct (scan_step s f single i x (sk ++ a :: tl)) as [[K _]|[(_ & K & E)|(_ & _ & E)]]; [assumption|contradiction|exact E|].
    rewrite E. now apply IH.
Qed.

(* ---- the whole call ---- *)
Definition enough (s : gst) : Prop := (required s < Z.of_nat (length (argv s)))%Z.

Lemma getopt_found s f single skipped a tl : enough s -> skipn (index s) (argv s) = skipped ++ a :: tl ->
  Forall arg_ok (argv s) -> Forall (fun b => ~ names single f b /\ ~ help_like b) skipped -> names single f a ->
  exists s' o, getopt_has s (Some f) single = Ok (s', true) /\ opt s' = o /\ gives single a tl o /\
    argv s' = argv s /\ index s' = if ordered s then index s + length skipped + (if single then 1 else 2) else index s.
Proof.
  intros E R OK NS NM. unfold getopt_has, enough in *. apply Z.ltb_lt in E. rewrite E, R.
  assert (OKR : Forall arg_ok (skipped ++ a :: tl)).
  { rewrite <- R. apply Forall_forall. intros x X. rewrite Forall_forall in OK. apply OK.
    rewrite <- (firstn_skipn (index s) (argv s)). apply in_app_iff. now right. }
  apply Forall_app in OKR. destruct OKR as [O1 O2]. inversion O2; subst.
  destruct (scan_found s f single skipped (index s) a tl) as (o & G & ->); try assumption.
  cbn [bind]. do 2 eexists. split; [reflexivity|]. split; [reflexivity|]. split; [exact G|]. split; reflexivity.
Qed.

Lemma getopt_not_found s f single : Forall arg_ok (argv s) ->
  ~ enough s \/
  (forall b, In b (skipn (index s) (argv s)) -> ~ names single f b) \/
  (exists skipped a tl, skipn (index s) (argv s) = skipped ++ a :: tl /\ Forall (fun b => ~ names single f b) skipped /\ ~ names single f a /\ help_like a) ->
  getopt_has s (Some f) single = Ok (s, false).
Proof.
  intros OK H. unfold getopt_has. destruct (Z.ltb_spec (required s) (Z.of_nat (length (argv s)))) as [L|L]; [|reflexivity].
  assert (OKR : Forall arg_ok (skipn (index s) (argv s))).
  { apply Forall_forall. intros x X. rewrite Forall_forall in OK. apply OK.
    rewrite <- (firstn_skipn (index s) (argv s)). apply in_app_iff. now right. }
  destruct H as [H|[H|(sk & a & tl & R & NS & NM & HL)]].
  - unfold enough in H. lia.
  - rewrite scan_absent; [reflexivity|exact OKR|]. now apply Forall_forall.
  - rewrite R in *. apply Forall_app in OKR. destruct OKR as [O1 O2]. inversion O2; subst. rewrite scan_help; auto.
Qed.

(* the two cases above are exhaustive *)
Lemma names_dec single f a : {names single f a} + {~ names single f a}.
Proof.
  destruct (list_eq_dec Z.eq_dec a f) as [->|N]; [left; now left|].
  destruct single; [|right; intros [K|(K & _)]; [auto|discriminate]].
  destruct (in_dec Z.eq_dec 61%Z f) as [I|I]; [right; intros [K|(_ & K & _)]; [auto|now apply K]|].
  destruct (prefixb (f ++ EQ) a) eqn:P.
  - apply prefixb_spec in P. left. right. split; [reflexivity|]. split; [exact I|]. destruct P as [v ->]. exists v. now rewrite <- app_assoc.
  - right. intros [K|(_ & _ & v & K)]; [auto|]. enough (prefixb (f ++ EQ) a = true) by congruence. apply prefixb_spec. exists v. now rewrite <- app_assoc.
Qed.
Lemma help_dec a : {help_like a} + {~ help_like a}.
Proof.
  destruct (strstr a HELP) as [i|] eqn:E.
  - left. exists i. apply strstr_some in E. apply E.
  - right. intros [i K]. exact (strstr_none a HELP E i K).
Qed.
Lemma exhaustive s f single :
  (enough s /\ exists skipped a tl, skipn (index s) (argv s) = skipped ++ a :: tl /\ Forall (fun b => ~ names single f b /\ ~ help_like b) skipped /\ names single f a) \/
  (~ enough s \/ (forall b, In b (skipn (index s) (argv s)) -> ~ names single f b) \/
  (exists skipped a tl, skipn (index s) (argv s) = skipped ++ a :: tl /\ Forall (fun b => ~ names single f b) skipped /\ ~ names single f a /\ help_like a)).
Proof.
  destruct (Z_lt_dec (required s) (Z.of_nat (length (argv s)))) as [L|L]; [|right; left; exact L].
  assert (H : forall l, (exists skipped a tl, l = skipped ++ a :: tl /\ Forall (fun b => ~ names single f b /\ ~ help_like b) skipped /\ names single f a) \/
    ((forall b, In b l -> ~ names single f b) \/ (exists skipped a tl, l = skipped ++ a :: tl /\ Forall (fun b => ~ names single f b) skipped /\ ~ names single f a /\ help_like a))).
  { induction l as [|x l IH]; [right; left; intros b []|].
    destruct (names_dec single f x) as [N|N]; [left; exists [], x, l; auto|].
    destruct (help_dec x) as [P|P]; [right; right; exists [], x, l; auto|].
    destruct IH as [(sk & a & tl & -> & F & M)|[H|(sk & a & tl & -> & F & M & Q)]].
    - left. exists (x :: sk), a, tl. auto.
    - right; left. intros b [<-|I]; auto.
    - right; right. exists (x :: sk), a, tl. auto. }
  destruct (H (skipn (index s) (argv s))) as [K|K]; [left|right; right]; auto.
Qed.

(* positional: NULL asks for the next argument *)
Lemma getopt_positional s a : enough s -> Forall arg_ok (argv s) -> nth_error (argv s) (index s) = Some a -> forall single,
  getopt_has s None single = Ok (with_found s (Some a) (index s + 1), true).
Proof.
  intros E OK N single. unfold getopt_has, enough in *. apply Z.ltb_lt in E. rewrite E.
  assert (R : exists tl, skipn (index s) (argv s) = a :: tl).
  { clear E OK. revert N. generalize (index s). induction (argv s) as [|x l IH]; intros [|n] N; try discriminate; cbn in *; [injection N as ->; eauto|auto]. }
  destruct R as [tl ->]. cbn [scan].
  assert (A : arg_ok a) by (rewrite Forall_forall in OK; apply OK; eapply nth_error_In; exact N).
  destruct (has_eq_spec a A) as (b & -> & B). cbn [bind].
  destruct (single && b) eqn:S.
  - apply andb_true_iff in S. destruct S as [-> ->].
    destruct (split_eq a A (proj1 B eq_refl)) as (r & p & v & ps & -> & _). cbn [bind]. now rewrite Nat.eqb_refl.
  - cbn [bind]. now rewrite Nat.eqb_refl.
Qed.

(* a flag in last position is reported as present with a NULL value *)
Lemma getopt_last_null s f skipped : enough s -> skipn (index s) (argv s) = skipped ++ [f] -> Forall arg_ok (argv s) ->
  Forall (fun b => b <> f /\ ~ help_like b) skipped -> exists s', getopt_has s (Some f) false = Ok (s', true) /\ opt s' = None.
Proof.
  intros E R OK NS.
  destruct (getopt_found s f false skipped f [] E R OK) as (s' & o & G & O & V & _).
  - eapply Forall_impl; [|exact NS]. intros b [H K]. split; [|exact K]. intros [Q|(Q & _)]; [auto|discriminate].
  - now left.
  - exists s'. cbn in V. rewrite O, V. auto.
Qed.
(* text after a second = is lost *)
Lemma getopt_value_cut s f v w : enough s -> skipn (index s) (argv s) = [f ++ EQ ++ v ++ EQ ++ w] -> Forall arg_ok (argv s) ->
  no_eq f -> no_eq v -> exists s', getopt_has s (Some f) true = Ok (s', true) /\ opt s' = Some v.
Proof.
  intros E R OK NF NV.
  destruct (getopt_found s f true [] _ [] E R OK (Forall_nil _)) as (s' & o & G & O & V & _).
  - right. split; [reflexivity|]. split; [exact NF|]. eauto.
  - exists s'. split; [exact G|]. rewrite O. destruct V as [[V _]|(v' & (p & t & A & NP & NV' & T) & ->)].
    + exfalso. apply V. apply in_app_iff. right. now left.
    + f_equal. assert (P : f = p).
      { exact (prefix_eq_unique f (v ++ EQ ++ w) p (v' ++ t) NF NP A). }
      subst p. apply app_inv_head in A. cbn in A. injection A as A. destruct T as [->|(t' & ->)].
      * rewrite app_nil_r in A. exfalso. apply NV'. rewrite <- A. apply in_app_iff. right. now left.
      * symmetry. exact (prefix_eq_unique v w v' t' NV NV' A).
Qed.
(* any fragment of the help text standing before the flag hides it *)
Lemma getopt_fragment_hides s f a tl single : Forall arg_ok (argv s) -> skipn (index s) (argv s) = a :: f :: tl -> help_like a ->
  ~ names single f a -> getopt_has s (Some f) single = Ok (s, false).
Proof. intros OK R H N. apply getopt_not_found; [exact OK|]. right; right. exists [], a, (f :: tl). auto. Qed.

(* ---- settings and the help words ---- *)
Lemma set_first s m o m' o' : set_done s = false ->
  let s1 := message_set s m o in message_set s1 m' o' = s1 /\ required s1 = m /\ ordered s1 = o /\ argv s1 = argv s /\ index s1 = index s /\
  (forall f single, (Z.of_nat (length (argv s)) <= m)%Z -> getopt_has s1 f single = Ok (s1, false)).
Proof.
  intros H. cbn. unfold message_set. rewrite H. cbn [set_done required ordered argv index]. do 5 (split; [reflexivity|]).
  intros f single L. unfold getopt_has. cbn [required argv]. destruct (Z.ltb_spec m (Z.of_nat (length (argv s)))); [lia|reflexivity].
Qed.
Definition codes (t : string) : bytes := map (fun c => Z.of_N (N_of_ascii c)) (list_ascii_of_string t).
Lemma help_words t : In t ["-h"; "--h"; "?"; "help"]%string -> help_like (codes t).
Proof.
  intros [<-|[<-|[<-|[<-|[]]]]]; [exists 0, [], (skipn 2 HELP)|exists 4, (firstn 4 HELP), (skipn 7 HELP)|exists 9, (firstn 9 HELP), (skipn 10 HELP)|
    exists 12, (firstn 12 HELP), []]; vm_compute; auto.
Qed.
