(* C112: the tree of wepoll.c is a map from keys to nodes and stays balanced. *)
From Verif Require Import Base DllModel RbModel.
Local Open Scope Z_scope.

(* ---- trees and what the memory holds for them ---- *)
Inductive tr := E | T (l : tr) (n : nat) (k : Z) (c : bool) (r : tr).
(* the child on side s is a, the other one b *)
Definition J (s : side) (a : tr) (n : nat) (k : Z) (c : bool) (b : tr) : tr := match s with SL => T a n k c b | SR => T b n k c a end.
Definition rt (t : tr) : option nat := match t with E => None | T _ n _ _ _ => Some n end.
Definition mkj (s : side) (a b P : option nat) (c : bool) (k : Z) : tnode := match s with SL => mkn a b P c k | SR => mkn b a P c k end.
Fixpoint inord (t : tr) : list (Z * nat) := match t with E => [] | T l n k _ r => inord l ++ (k, n) :: inord r end.
Definition ids (t : tr) : list nat := map snd (inord t).
Fixpoint tok (h : tmem) (P : option nat) (t : tr) : Prop :=
  match t with
  | E => True
  | T l n k c r => fld h n = mkn (rt l) (rt r) P c k /\ tok h (Some n) l /\ tok h (Some n) r
  end.
(* contexts: innermost frame first *)
Record frame := F { fs : side; fn : nat; fk : Z; fc : bool; ft : tr }.
Definition fill (f : frame) (t : tr) : tr := J (fs f) t (fn f) (fk f) (fc f) (ft f).
Fixpoint plug (cx : list frame) (t : tr) : tr := match cx with [] => t | f :: r => plug r (fill f t) end.
Definition ptop (cx : list frame) (P : option nat) : option nat := match cx with [] => P | f :: _ => Some (fn f) end.
(* the pointer to the outermost node of the context, p: to the hole *)
Fixpoint rtop (cx : list frame) (p : option nat) : option nat := match cx with [] => p | f :: r => rtop r (Some (fn f)) end.
Fixpoint cok (h : tmem) (p : option nat) (cx : list frame) (P : option nat) : Prop :=
  match cx with
  | [] => True
  | f :: r => fld h (fn f) = mkj (fs f) p (rt (ft f)) (ptop r P) (fc f) (fk f) /\ tok h (Some (fn f)) (ft f) /\ cok h (Some (fn f)) r P
  end.
Definition rep (h : tmem) (t : tr) : Prop := root h = rt t /\ tok h None t /\ NoDup (ids t).

Lemma rt_J s a n k c b : rt (J s a n k c b) = Some n. Proof. destruct s; reflexivity. Qed.
Lemma rt_plug cx t : rt (plug cx t) = rtop cx (rt t).
Proof. revert t. induction cx as [|f r IH]; intros t; cbn; [reflexivity|]. rewrite IH. unfold fill. rewrite rt_J. reflexivity. Qed.
Lemma tok_J h P s a n k c b : tok h P (J s a n k c b) <-> fld h n = mkj s (rt a) (rt b) P c k /\ tok h (Some n) a /\ tok h (Some n) b.
Proof. destruct s; cbn; tauto. Qed.
Lemma tok_plug h cx : forall P t, tok h P (plug cx t) <-> cok h (rt t) cx P /\ tok h (ptop cx P) t.
Proof.
  induction cx as [|f r IH]; intros P t; cbn [plug cok ptop]; [tauto|]. rewrite IH. unfold fill. rewrite rt_J, tok_J. tauto.
Qed.
Definition fids (f : frame) : list nat := fn f :: ids (ft f).
Definition cids (cx : list frame) : list nat := flat_map fids cx.
Lemma ids_T l n k c r : ids (T l n k c r) = ids l ++ n :: ids r.
Proof. unfold ids. cbn. rewrite map_app. reflexivity. Qed.
Lemma ids_J s a n k c b : Permutation (ids (J s a n k c b)) (n :: ids a ++ ids b).
Proof.
  destruct s; cbn [J]; rewrite ids_T; [symmetry; apply Permutation_middle|].
  rewrite <- Permutation_middle. constructor. apply Permutation_app_comm.
Qed.
Lemma ids_plug cx : forall t, Permutation (ids (plug cx t)) (ids t ++ cids cx).
Proof.
  induction cx as [|f r IH]; intros t; cbn [plug cids flat_map]; [rewrite app_nil_r; reflexivity|].
  rewrite IH. unfold fill, fids. rewrite ids_J. fold (cids r). cbn [app]. rewrite <- !app_assoc. rewrite <- Permutation_middle. reflexivity.
Qed.
Lemma inord_J s a n k c b : inord (J s a n k c b) = match s with SL => inord a ++ (k, n) :: inord b | SR => inord b ++ (k, n) :: inord a end.
Proof. destruct s; reflexivity. Qed.
Fixpoint bef (cx : list frame) : list (Z * nat) :=
  match cx with [] => [] | f :: r => bef r ++ match fs f with SL => [] | SR => inord (ft f) ++ [(fk f, fn f)] end end.
Fixpoint aft (cx : list frame) : list (Z * nat) :=
  match cx with [] => [] | f :: r => match fs f with SL => (fk f, fn f) :: inord (ft f) | SR => [] end ++ aft r end.
Lemma inord_plug cx : forall t, inord (plug cx t) = bef cx ++ inord t ++ aft cx.
Proof.
  induction cx as [|f r IH]; intros t; cbn [plug bef aft]; [rewrite app_nil_r; reflexivity|]. rewrite IH. unfold fill. rewrite inord_J.
  destruct (fs f); rewrite <- ?app_assoc; cbn [app]; rewrite <- ?app_assoc; reflexivity.
Qed.

Lemma tok_ext h h' t : forall P, (forall x, In x (ids t) -> fld h' x = fld h x) -> tok h P t -> tok h' P t.
Proof.
  induction t as [|l IHl n k c r IHr]; intros P X; cbn; [auto|]. rewrite ids_T in X. intros (A & B & C).
  split; [rewrite X; [exact A|apply in_app_iff; cbn; auto]|]. split.
  - apply IHl; [|exact B]. intros x I. apply X, in_app_iff. auto.
  - apply IHr; [|exact C]. intros x I. apply X, in_app_iff. cbn. auto.
Qed.
Lemma cok_ext h h' cx : forall p P, (forall x, In x (cids cx) -> fld h' x = fld h x) -> cok h p cx P -> cok h' p cx P.
Proof.
  induction cx as [|f r IH]; intros p P X; cbn; [auto|]. cbn in X. intros (A & B & C). split; [rewrite X; auto|]. split.
  - eapply tok_ext; [|exact B]. intros x I. apply X. right. apply in_app_iff. auto.
  - apply IH; [|exact C]. intros x I. apply X. right. apply in_app_iff. auto.
Qed.
Lemma tok_put h n v t P : ~ In n (ids t) -> tok h P t -> tok (put h n v) P t.
Proof. intros N. apply tok_ext. intros x I. cbn. unfold upd. destruct (Nat.eqb_spec x n); [congruence|reflexivity]. Qed.
Lemma cok_put h n v cx p P : ~ In n (cids cx) -> cok h p cx P -> cok (put h n v) p cx P.
Proof. intros N. apply cok_ext. intros x I. cbn. unfold upd. destruct (Nat.eqb_spec x n); [congruence|reflexivity]. Qed.

Lemma is_spec p q : is p q = true <-> p = q.
Proof. destruct p, q; cbn; try (split; [discriminate|congruence]); [|tauto]. rewrite Nat.eqb_eq. split; congruence. Qed.
Lemma rt_in t n : rt t = Some n -> In n (ids t).
Proof. destruct t; [discriminate|]. intros [= <-]. rewrite ids_T. apply in_app_iff. cbn. auto. Qed.

(* the node in the middle of a tree *)
Lemma rep_at h cx s a n k c b : rep h (plug cx (J s a n k c b)) -> fld h n = mkj s (rt a) (rt b) (ptop cx None) c k.
Proof. intros (_ & K & _). apply tok_plug in K as [_ K]. apply tok_J in K as [K _]. exact K. Qed.
Lemma rep_root h cx t : rep h (plug cx t) -> root h = rtop cx (rt t).
Proof. intros (R & _). rewrite R. apply rt_plug. Qed.

Lemma put_same h n v : fld (put h n v) n = v.
Proof. cbn. unfold upd. rewrite Nat.eqb_refl. reflexivity. Qed.
Lemma put_other h n v x : x <> n -> fld (put h n v) x = fld h x.
Proof. cbn. unfold upd. destruct (Nat.eqb_spec x n); congruence. Qed.

Lemma zip_nd cx t : NoDup (ids (plug cx t)) <-> NoDup (ids t ++ cids cx).
Proof. split; apply Permutation_NoDup; [|symmetry]; apply ids_plug. Qed.
Lemma nd_J cx s a n k c b : NoDup (ids (plug cx (J s a n k c b))) <-> NoDup (n :: ids a ++ ids b ++ cids cx).
Proof.
  rewrite zip_nd. split; apply Permutation_NoDup; [|symmetry]; rewrite ids_J; cbn [app]; rewrite <- app_assoc; reflexivity.
Qed.
Lemma nodup_app {A} (l r : list A) : NoDup (l ++ r) <-> NoDup l /\ NoDup r /\ (forall x, In x l -> ~ In x r).
Proof.
  induction l as [|a l IH]; cbn [app].
  - split; [intros H; split; [constructor|split; [exact H|intros x []]]|tauto].
  - rewrite !NoDup_cons_iff, IH, in_app_iff. split.
    + intros (H1 & H2 & H3 & H4). split; [tauto|]. split; [tauto|]. intros x [<-|I]; [tauto|apply H4, I].
    + intros ((H1 & H2) & H3 & H4). split; [intros [I|I]; [tauto|apply (H4 a); cbn; auto]|]. split; [tauto|]. split; [tauto|]. intros x I. apply H4. cbn. auto.
Qed.

Lemma recolor h cx s a n k c b c' : rep h (plug cx (J s a n k c b)) -> rep (set_red h n c') (plug cx (J s a n k c' b)).
Proof.
  intros R. pose proof (rep_at _ _ _ _ _ _ _ _ R) as FN. destruct R as (RO & K & ND).
  split; [cbn; rewrite RO, !rt_plug, !rt_J; reflexivity|]. split.
  - apply nd_J in ND. apply NoDup_cons_iff in ND as [N ND]. rewrite !in_app_iff in N.
    apply tok_plug in K as [C K]. apply tok_J in K as (_ & A & B). apply tok_plug. rewrite rt_J in *. split.
    + apply cok_put; [tauto|exact C].
    + apply tok_J. unfold set_red. rewrite put_same, FN. split; [destruct s; reflexivity|]. split; apply tok_put; tauto.
  - apply nd_J. apply nd_J in ND. exact ND.
Qed.

Lemma rotate_ok s h cx a p kp cp b q kq cq d : rep h (plug cx (J s a p kp cp (J s b q kq cq d))) ->
  exists h', rotate s h p = Ok h' /\ rep h' (plug cx (J s (J s a p kp cp b) q kq cq d)).
Proof.
  intros R. pose proof (rep_at _ _ _ _ _ _ _ _ R) as FP. destruct R as (RO & K & ND).
  rewrite rt_plug, rt_J in RO. apply tok_plug in K as [C K]. apply tok_J in K as (_ & A & K). apply tok_J in K as (FQ & B & D).
  rewrite rt_J in *.
  assert (NDX : NoDup (p :: q :: ids a ++ ids b ++ ids d ++ cids cx)).
  { apply nd_J in ND. eapply Permutation_NoDup; [|exact ND]. constructor. rewrite ids_J. cbn [app]. rewrite <- Permutation_middle. constructor.
    rewrite <- app_assoc. reflexivity. }
  assert (NDY : NoDup (ids (plug cx (J s (J s a p kp cp b) q kq cq d)))).
  { apply nd_J. eapply Permutation_NoDup; [|exact NDX]. rewrite ids_J. cbn [app]. rewrite perm_swap. rewrite <- app_assoc. reflexivity. }
  clear ND. apply NoDup_cons_iff in NDX as [NP NDX]. apply NoDup_cons_iff in NDX as [NQ NDX]. cbn [In] in NP. rewrite !in_app_iff in NP, NQ.
  apply nodup_app in NDX as (_ & NDX & XA). apply nodup_app in NDX as (_ & NDX & XB). apply nodup_app in NDX as (_ & NDC & XD).
  assert (PQ : p <> q) by (intros ->; tauto).
  (* the memory after the first assignment *)
  set (h1 := match par (fld h p) with
             | Some pp => if is (lft (fld h pp)) (Some p) then set_ch SL h pp (ch (opp s) (fld h p)) else set_ch SR h pp (ch (opp s) (fld h p))
             | None => set_root h (ch (opp s) (fld h p)) end).
  assert (H1 : root h1 = rtop cx (Some q) /\ cok h1 (Some q) cx None /\ forall x, ~ In x (cids cx) -> fld h1 x = fld h x).
  { subst h1. rewrite FP. replace (ch (opp s) (mkj s (rt a) (Some q) (ptop cx None) cp kp)) with (Some q) by (destruct s; reflexivity).
    replace (par (mkj s (rt a) (Some q) (ptop cx None) cp kp)) with (ptop cx None) by (destruct s; reflexivity).
    destruct cx as [|[s' pp kk c t] cx]; cbn [ptop].
    - split; [reflexivity|]. split; [exact I|]. reflexivity.
    - cbn [cok fn fs fk fc ft] in C. destruct C as (C1 & C2 & C3). cbn [cids flat_map fids fn ft] in NP, NQ, NDC. apply NoDup_cons_iff in NDC as [NPP NDC].
      rewrite !in_app_iff in NPP, NP, NQ. cbn [fn]. rewrite C1.
      assert (IS : is (lft (mkj s' (Some p) (rt t) (ptop cx None) c kk)) (Some p) = match s' with SL => true | SR => false end).
      { destruct s'; cbn [mkj lft]; [apply is_spec; reflexivity|]. destruct (is (rt t) (Some p)) eqn:EQ; [|reflexivity]. apply is_spec in EQ. apply rt_in in EQ. cbn in NP. tauto. }
      rewrite IS. assert (RR : forall x, ~ In x (pp :: ids t ++ cids cx) -> x <> pp) by (intros x NX ->; apply NX; cbn; auto).
      destruct s'; (split; [exact RO|]); (split; [|intros x NX; apply put_other; intros ->; apply NX; left; reflexivity]);
        cbn [cok fn fs fk fc ft]; unfold set_ch; rewrite put_same, C1; (split; [reflexivity|]);
        (split; [apply tok_put; [tauto|exact C2]|apply cok_put; [fold (cids cx) in NPP; tauto|exact C3]]). }
  destruct H1 as (H1a & H1b & H1c). unfold rotate. cbv zeta. fold h1. rewrite FP.
  replace (ch (opp s) (mkj s (rt a) (Some q) (ptop cx None) cp kp)) with (Some q) by (destruct s; reflexivity). cbn [at_ bind].
  eexists. split; [reflexivity|]. replace (par (mkj s (rt a) (Some q) (ptop cx None) cp kp)) with (ptop cx None) by (destruct s; reflexivity).
  assert (P1 : fld h1 p = mkj s (rt a) (Some q) (ptop cx None) cp kp) by (rewrite H1c; tauto).
  assert (Q1 : fld h1 q = mkj s (rt b) (rt d) (Some p) cq kq) by (rewrite H1c; tauto).
  assert (A1 : tok h1 (Some p) a) by (eapply tok_ext; [|exact A]; intros x I; apply H1c; specialize (XA x I); rewrite !in_app_iff in XA; tauto).
  assert (B1 : tok h1 (Some q) b) by (eapply tok_ext; [|exact B]; intros x I; apply H1c; specialize (XB x I); rewrite !in_app_iff in XB; tauto).
  assert (D1 : tok h1 (Some q) d) by (eapply tok_ext; [|exact D]; intros x I; apply H1c; specialize (XD x I); tauto).
  clearbody h1. clear H1c RO C FP FQ A B D.
  set (h2 := set_par h1 q (ptop cx None)).
  assert (Q2 : fld h2 q = mkj s (rt b) (rt d) (ptop cx None) cq kq) by (unfold h2, set_par; rewrite put_same, Q1; destruct s; reflexivity).
  assert (P2 : fld h2 p = mkj s (rt a) (Some q) (ptop cx None) cp kp) by (unfold h2, set_par; rewrite put_other by exact PQ; exact P1).
  set (h3 := set_par h2 p (Some q)).
  assert (Q3 : fld h3 q = mkj s (rt b) (rt d) (ptop cx None) cq kq) by (unfold h3, set_par; rewrite put_other by congruence; exact Q2).
  assert (P3 : fld h3 p = mkj s (rt a) (Some q) (Some q) cp kp) by (unfold h3, set_par; rewrite put_same, P2; destruct s; reflexivity).
  rewrite Q3. replace (ch s (mkj s (rt b) (rt d) (ptop cx None) cq kq)) with (rt b) by (destruct s; reflexivity).
  set (h4 := set_ch (opp s) h3 p (rt b)).
  assert (Q4 : fld h4 q = mkj s (rt b) (rt d) (ptop cx None) cq kq) by (unfold h4, set_ch; rewrite put_other by congruence; exact Q3).
  assert (P4 : fld h4 p = mkj s (rt a) (rt b) (Some q) cp kp) by (unfold h4, set_ch; rewrite put_same, P3; destruct s; reflexivity).
  rewrite P4. replace (ch (opp s) (mkj s (rt a) (rt b) (Some q) cp kp)) with (rt b) by (destruct s; reflexivity).
  assert (A4 : tok h4 (Some p) a) by (repeat (apply tok_put; [tauto|]); exact A1).
  assert (B4 : tok h4 (Some q) b) by (repeat (apply tok_put; [tauto|]); exact B1).
  assert (D4 : tok h4 (Some q) d) by (repeat (apply tok_put; [tauto|]); exact D1).
  assert (C4 : cok h4 (Some q) cx None) by (repeat (apply cok_put; [tauto|]); exact H1b).
  assert (R4 : root h4 = rtop cx (Some q)) by exact H1a.
  clearbody h4. clear h3 h2 Q3 Q2 P3 P2 h1 P1 Q1 A1 B1 D1 H1a H1b.
  set (h5 := match rt b with Some x => set_par h4 x (Some p) | None => h4 end).
  assert (H5 : root h5 = rtop cx (Some q) /\ fld h5 q = mkj s (rt b) (rt d) (ptop cx None) cq kq /\ fld h5 p = mkj s (rt a) (rt b) (Some q) cp kp /\
    tok h5 (Some p) a /\ tok h5 (Some p) b /\ tok h5 (Some q) d /\ cok h5 (Some q) cx None).
  { subst h5. destruct b as [|bl x kx c br]; cbn [rt]; [tauto|]. assert (IX : In x (ids (T bl x kx c br))) by (apply rt_in; reflexivity).
    assert (x <> p) by (intros ->; tauto). assert (x <> q) by (intros ->; tauto).
    unfold set_par. rewrite !put_other by congruence. split; [exact R4|]. split; [exact Q4|]. split; [exact P4|]. split; [apply tok_put; [|exact A4]|].
    - intros I. apply (XA x I). rewrite !in_app_iff. tauto.
    - pose proof (XB x IX) as XX. rewrite in_app_iff in XX. split; [|split; [apply tok_put; tauto|apply cok_put; tauto]].
      cbn [tok] in B4 |- *. destruct B4 as (B5 & B6 & B7). rewrite put_same, B5. split; [reflexivity|].
      assert (NX : NoDup (ids (T bl x kx c br))) by (apply nd_J in NDY; clear - NDY; apply NoDup_cons_iff in NDY as [_ NDY]; apply nodup_app in NDY as (NDY & _);
        assert (PM : Permutation (ids (J s a p kp cp (T bl x kx c br))) (p :: ids a ++ ids (T bl x kx c br))) by apply ids_J;
        eapply Permutation_NoDup in NDY; [|exact PM]; apply NoDup_cons_iff in NDY as [_ NDY]; apply nodup_app in NDY; tauto).
      change (T bl x kx c br) with (plug [] (J SL bl x kx c br)) in NX. apply nd_J in NX. apply NoDup_cons_iff in NX as [NX _]. rewrite !in_app_iff in NX.
      split; apply tok_put; tauto. }
  clearbody h5. destruct H5 as (R5 & Q5 & P5 & A5 & B5 & D5 & C5).
  assert (Q6 : fld (set_ch s h5 q (Some p)) q = mkj s (Some p) (rt d) (ptop cx None) cq kq) by (unfold set_ch; rewrite put_same, Q5; destruct s; reflexivity).
  assert (P6 : fld (set_ch s h5 q (Some p)) p = mkj s (rt a) (rt b) (Some q) cp kp) by (unfold set_ch; rewrite put_other by exact PQ; exact P5).
  split; [rewrite rt_plug, rt_J; exact R5|]. split; [|exact NDY].
  apply tok_plug. rewrite rt_J. split; [apply cok_put; [tauto|exact C5]|]. apply tok_J. rewrite rt_J. split; [exact Q6|]. split.
  - apply tok_J. split; [exact P6|]. split; apply tok_put; tauto.
  - apply tok_put; tauto.
Qed.

(* ---- colours ---- *)
Definition isred (t : tr) : bool := match t with T _ _ _ c _ => c | E => false end.
Fixpoint bh (t : tr) (n : nat) : Prop :=
  match t with
  | E => n = O
  | T l _ _ c r => if c then isred l = false /\ isred r = false /\ bh l n /\ bh r n
                   else match n with O => False | S m => bh l m /\ bh r m end
  end.
Definition black_top (cx : list frame) : Prop := match cx with [] => False | f :: _ => fc f = false end.
Fixpoint bhc (cx : list frame) (n : nat) : Prop :=
  match cx with
  | [] => True
  | f :: r => bh (ft f) n /\ (fc f = true -> isred (ft f) = false /\ black_top r) /\ bhc r (if fc f then n else S n)
  end.
Definition rbt (t : tr) : Prop := isred t = false /\ exists n, bh t n.

Lemma isred_J s a n k c b : isred (J s a n k c b) = c. Proof. destruct s; reflexivity. Qed.
Lemma bh_J s a n k c b m : bh (J s a n k c b) m <-> (if c then isred a = false /\ isred b = false /\ bh a m /\ bh b m else match m with O => False | S m => bh a m /\ bh b m end).
Proof. destruct s, c; cbn; try destruct m; tauto. Qed.
Lemma J_opp s a n k c b : J (opp s) a n k c b = J s b n k c a. Proof. destruct s; reflexivity. Qed.
Lemma opp_opp s : opp (opp s) = s. Proof. destruct s; reflexivity. Qed.

Lemma replug cx : forall t n, bh t n -> bhc cx n -> (isred t = true -> black_top cx) -> rbt (plug cx t).
Proof.
  induction cx as [|f r IH]; intros t n B C R; cbn [plug].
  - split; [|eauto]. destruct (isred t); [destruct (R eq_refl)|reflexivity].
  - cbn [bhc] in C. destruct C as (C1 & C2 & C3). destruct (fc f) eqn:FC.
    + destruct (C2 eq_refl) as [C4 C5]. apply (IH _ n); [|exact C3|intros _; exact C5]. unfold fill. apply bh_J. rewrite FC.
      split; [|tauto]. destruct (isred t) eqn:RT; [|reflexivity]. specialize (R eq_refl). cbn in R. congruence.
    + apply (IH _ (S n)); [|exact C3|]; unfold fill; rewrite ?isred_J, FC; [|discriminate]. apply bh_J. tauto.
Qed.
Lemma unplug cx : forall t, rbt (plug cx t) -> exists n, bh t n /\ bhc cx n /\ (isred t = true -> black_top cx).
Proof.
  induction cx as [|f r IH]; intros t H; cbn [plug] in H.
  - destruct H as [H [n B]]. exists n. split; [exact B|]. split; [exact I|]. congruence.
  - destruct (IH _ H) as (n & B & C & R). unfold fill in B, R. apply bh_J in B. rewrite isred_J in R. cbn [bhc]. destruct (fc f) eqn:FC.
    + exists n. split; [tauto|]. split; [|intros RT; destruct B; congruence]. split; [tauto|]. split; [|exact C]. intros _. split; [tauto|auto].
    + destruct n as [|m]; [contradiction|]. exists m. split; [tauto|]. split; [|intros _; exact FC]. split; [tauto|]. split; [discriminate|exact C].
Qed.

Lemma redp_rt h P t : tok h P t -> redp h (rt t) = isred t.
Proof. destruct t as [|l n k c r]; [reflexivity|]. intros [X _]. cbn. rewrite X. reflexivity. Qed.
Lemma redp_at h cx t : rep h (plug cx t) -> redp h (rt t) = isred t.
Proof. intros (_ & K & _). apply tok_plug in K as [_ K]. eapply redp_rt. exact K. Qed.
Lemma ch_mkj_cis s a b P c k : ch s (mkj s a b P c k) = a. Proof. destruct s; reflexivity. Qed.
Lemma ch_mkj_trans s a b P c k : ch (opp s) (mkj s a b P c k) = b. Proof. destruct s; reflexivity. Qed.
Lemma par_mkj s a b P c k : par (mkj s a b P c k) = P. Proof. destruct s; reflexivity. Qed.
Lemma red_mkj s a b P c k : red (mkj s a b P c k) = c. Proof. destruct s; reflexivity. Qed.
Lemma key_mkj s a b P c k : key (mkj s a b P c k) = k. Proof. destruct s; reflexivity. Qed.

(* children differ *)
Lemma kids_differ h cx s a n k c b x : rep h (plug cx (J s a n k c b)) -> rt a = Some x -> rt b <> Some x.
Proof.
  intros (_ & _ & ND) A B. apply nd_J in ND. apply NoDup_cons_iff in ND as [_ ND]. apply nodup_app in ND as (_ & _ & ND).
  apply rt_in in A, B. apply (ND x A). apply in_app_iff. auto.
Qed.
(* the side found by comparing with the left child *)
Lemma side_found h cx s a n k c b x : rep h (plug cx (J s a n k c b)) -> rt a = x -> rt b <> x -> (if is x (lft (fld h n)) then SL else SR) = s.
Proof.
  intros R A B. rewrite (rep_at _ _ _ _ _ _ _ _ R). destruct s; cbn [mkj lft].
  - rewrite (proj2 (is_spec x (rt a))) by congruence. reflexivity.
  - destruct (is x (rt b)) eqn:EQ; [|reflexivity]. apply is_spec in EQ. congruence.
Qed.

Ltac zz R := cbn [plug] in R; unfold fill in R; cbn [fs fn fk fc ft] in R.
Ltac lst := repeat (progress (rewrite <- ?app_assoc; cbn [app])); reflexivity.
(* ---- adding ---- *)
Definition blacken (t : tr) : tr := match t with E => E | T l n k _ r => T l n k false r end.
Lemma blacken_id t : isred t = false -> blacken t = t.
Proof. destruct t as [|l n k c r]; [reflexivity|]. cbn. congruence. Qed.

Lemma swap_at h cx s a n k c b : rep h (plug cx (J s a n k c b)) <-> rep h (plug cx (J (opp s) b n k c a)).
Proof. rewrite J_opp. tauto. Qed.

Lemma outer s h cx X p kp c sib g kg c' unc : rep h (plug cx (J s (J s X p kp c sib) g kg c' unc)) ->
  exists h3, rotate (opp s) (set_red (set_red h p false) g true) g = Ok h3 /\ rep h3 (plug cx (J s X p kp false (J s sib g kg true unc))).
Proof.
  intros R. change (rep h (plug (F s g kg c' unc :: cx) (J s X p kp c sib))) in R.
  apply (recolor _ _ _ _ _ _ _ _ false) in R. zz R.
  apply (recolor _ _ _ _ _ _ _ _ true) in R.
  rewrite <- (J_opp s sib p) in R. rewrite <- (J_opp s unc g) in R. destruct (rotate_ok _ _ _ _ _ _ _ _ _ _ _ _ R) as (h3 & E3 & R3).
  exists h3. split; [exact E3|]. rewrite !J_opp in R3. exact R3.
Qed.

Lemma add_loop_ok : forall fuel cx l nd k r n h, (length cx <= fuel)%nat ->
  rep h (plug cx (T l nd k true r)) -> bh l n -> bh r n -> isred l = false -> isred r = false -> bhc cx n ->
  exists h' t', add_loop fuel h nd (ptop cx None) = Ok h' /\ rep h' t' /\ inord t' = inord (plug cx (T l nd k true r)) /\ rbt (blacken t').
Proof.
  induction fuel as [fuel IH] using (well_founded_induction lt_wf). intros cx l nd k r n h LE R BL BR IL IR C.
  destruct cx as [|[sf p kp cp sib] cx].
  { exists h, (T l nd k true r). split; [destruct fuel; reflexivity|]. split; [exact R|]. split; [reflexivity|]. split; [reflexivity|]. exists (S n). cbn. tauto. }
  set (X := T l nd k true r) in *. assert (BX : bh X n) by (cbn; tauto).
  pose proof R as R0. zz R. pose proof (rep_at _ _ _ _ _ _ _ _ R) as FP.
  cbn [bhc fc ft] in C. destruct C as (C1 & C2 & C3). cbn [ptop fn].
  assert (ST : add_loop fuel h nd (Some p) = if red (fld h p) then match fuel with O => Fuel | S f => do g <- at_ (par (fld h p));
        do x <- rebalance_insert (if is (Some p) (lft (fld h g)) then SL else SR) h nd p; let (h1, node1) := x in add_loop f h1 node1 (par (fld h1 node1)) end else Ok h) by (destruct fuel; reflexivity).
  rewrite ST. clear ST. rewrite FP, red_mkj, par_mkj. destruct cp.
  2:{ exists h, (plug (F sf p kp false sib :: cx) X). split; [reflexivity|]. split; [exact R0|]. split; [reflexivity|].
      assert (V : rbt (plug (F sf p kp false sib :: cx) X)).
      { apply (replug _ _ n); [exact BX| |reflexivity]. cbn. split; [exact C1|]. split; [discriminate|exact C3]. }
      rewrite blacken_id; [exact V|apply V]. }
  destruct (C2 eq_refl) as [C4 C5]. destruct cx as [|[sg g kg cg unc] cx]; [destruct C5|]. cbn in C5. subst cg.
  cbn [bhc fc ft] in C3. destruct C3 as (C6 & _ & C7). cbn [length] in LE. destruct fuel as [|fuel]; [lia|].
  change (plug (F sf p kp true sib :: F sg g kg false unc :: cx) X) with (plug cx (J sg (J sf X p kp true sib) g kg false unc)).
  cbn [ptop fn at_ bind]. zz R. zz R0.
  pose proof (rep_at _ _ _ _ _ _ _ _ R) as FG. rewrite rt_J in FG.
  assert (NG : rt unc <> Some p) by (eapply kids_differ; [exact R|apply rt_J]).
  rewrite (side_found _ _ _ _ _ _ _ _ _ R (rt_J _ _ _ _ _ _) NG).
  unfold rebalance_insert. rewrite FP, par_mkj. cbn [ptop fn at_ bind]. rewrite FG, ch_mkj_trans.
  assert (RU : redp h (rt unc) = isred unc).
  { apply (redp_at h (F (opp sg) g kg false (J sf X p kp true sib) :: cx) unc). cbn [plug]; unfold fill; cbn [fs fn fk fc ft]. rewrite J_opp. exact R. }
  rewrite RU. destruct (isred unc) eqn:IU.
  - (* red uncle *)
    destruct unc as [|ul u ku cu ur]; [discriminate|]. cbn in IU. subst cu. cbn [rt at_ bind].
    rewrite <- (J_opp sg _ g) in R. change (rep h (plug (F (opp sg) g kg false (J sf X p kp true sib) :: cx) (J SL ul u ku true ur))) in R.
    apply (recolor _ _ _ _ _ _ _ _ false) in R. zz R. rewrite J_opp in R.
    change (rep (set_red h u false) (plug (F sg g kg false (J SL ul u ku false ur) :: cx) (J sf X p kp true sib))) in R.
    apply (recolor _ _ _ _ _ _ _ _ false) in R. zz R.
    apply (recolor _ _ _ _ _ _ _ _ true) in R.
    pose proof (rep_at _ _ _ _ _ _ _ _ R) as FG2. cbn in C6. destruct C6 as (U1 & U2 & U3 & U4).
    rewrite FG2, par_mkj.
    assert (B1 : bh (J sf X p kp false sib) (S n)) by (apply bh_J; tauto).
    assert (B2 : bh (J SL ul u ku false ur) (S n)) by (apply bh_J; tauto).
    destruct sg; cbn [J] in R.
    + destruct (IH fuel ltac:(lia) cx _ g kg _ (S n) _ ltac:(lia) R B1 B2 (isred_J _ _ _ _ _ _) eq_refl C7) as (h' & t' & A1 & A2 & A3 & A4).
      exists h', t'. split; [exact A1|]. split; [exact A2|]. split; [|exact A4]. rewrite A3, !inord_plug. cbn [inord J]. rewrite !inord_J. reflexivity.
    + destruct (IH fuel ltac:(lia) cx _ g kg _ (S n) _ ltac:(lia) R B2 B1 eq_refl (isred_J _ _ _ _ _ _) C7) as (h' & t' & A1 & A2 & A3 & A4).
      exists h', t'. split; [exact A1|]. split; [exact A2|]. split; [|exact A4]. rewrite A3, !inord_plug. cbn [inord J]. rewrite !inord_J. reflexivity.
  - (* black uncle: at most two rotations *)
    assert (FIN : forall h1 nd1 Y q kq sb z, rep h1 (plug cx (J sg (J sg Y q kq true sb) g kg false unc)) -> bh Y n -> bh sb n -> isred sb = false ->
        inord (J sg (J sg Y q kq true sb) g kg false unc) = inord z -> rt Y = Some nd1 ->
        exists h' t', (do h3 <- rotate (opp sg) (set_red (set_red h1 q false) g true) g; add_loop fuel h3 nd1 (par (fld h3 nd1))) = Ok h' /\
          rep h' t' /\ inord t' = inord (plug cx z) /\ rbt (blacken t')).
    { intros h1 nd1 Y q kq sb z RY BY BS IS IZ RTY. destruct (outer _ _ _ _ _ _ _ _ _ _ _ _ RY) as (h3 & E3 & R3). rewrite E3. cbn [bind].
      exists h3, (plug cx (J sg Y q kq false (J sg sb g kg true unc))).
      assert (FQ : fld h3 q = mkj sg (rt Y) (Some g) (ptop cx None) false kq) by (rewrite (rep_at _ _ _ _ _ _ _ _ R3), rt_J; reflexivity).
      assert (PN : par (fld h3 nd1) = Some q).
      { destruct Y as [|yl y ky cy yr]; [discriminate|]. injection RTY as ->.
        rewrite (rep_at h3 (F sg q kq false (J sg sb g kg true unc) :: cx) SL yl nd1 ky cy yr R3). reflexivity. }
      split; [rewrite PN; destruct fuel; cbn [add_loop]; rewrite FQ, red_mkj; reflexivity|]. split; [exact R3|]. split.
      - rewrite !inord_plug. rewrite <- IZ. destruct sg; cbn [J inord]; lst.
      - assert (V : rbt (plug cx (J sg Y q kq false (J sg sb g kg true unc)))).
        { apply (replug _ _ (S n)); [|exact C7|rewrite isred_J; discriminate]. apply bh_J. split; [exact BY|]. apply bh_J. tauto. }
        rewrite blacken_id; [exact V|apply V]. }
    assert (SD : sf = sg \/ sf = opp sg) by (destruct sf, sg; auto). destruct SD as [-> | ->].
    + (* outer *)
      rewrite ch_mkj_trans. replace (is (Some nd) (rt sib)) with false.
      2:{ symmetry. destruct (is (Some nd) (rt sib)) eqn:EQ; [|reflexivity]. apply is_spec in EQ. exfalso.
          eapply (kids_differ h (F sg g kg false unc :: cx) sg X p kp true sib nd); [exact R|reflexivity|congruence]. }
      cbn [bind at_]. destruct (FIN h nd X p kp sib (J sg (J sg X p kp true sib) g kg false unc) R BX C1 C4 eq_refl eq_refl) as (h' & t' & A1 & A2).
      exists h', t'. split; [|exact A2]. rewrite <- A1. destruct (rotate (opp sg) (set_red (set_red h p false) g true) g); reflexivity.
    + (* inner *)
      replace (ch (opp sg) (mkj (opp sg) (rt X) (rt sib) (Some g) true kp)) with (Some nd) by (rewrite ch_mkj_cis; reflexivity).
      rewrite (proj2 (is_spec (Some nd) (Some nd)) eq_refl). rewrite J_opp in R.
      assert (XS : exists x y, X = J sg x nd k true y /\ bh x n /\ bh y n /\ isred x = false /\ isred y = false).
      { destruct sg; [exists l, r|exists r, l]; unfold X; auto. }
      destruct XS as (x & y & XE & XB & YB & XR & YR). rewrite XE in R |- *. change (rep h (plug (F sg g kg false unc :: cx) (J sg sib p kp true (J sg x nd k true y)))) in R.
      destruct (rotate_ok _ _ _ _ _ _ _ _ _ _ _ _ R) as (h1 & E1 & R1). rewrite E1. cbn [bind].
      assert (PP : par (fld h1 p) = Some nd).
      { rewrite (rep_at h1 (F sg nd k true y :: F sg g kg false unc :: cx) sg sib p kp true x R1), par_mkj. reflexivity. }
      rewrite PP. cbn [at_ bind]. zz R1.
      assert (BP : bh (J sg sib p kp true x) n) by (apply bh_J; tauto).
      assert (IO : inord (J sg (J sg (J sg sib p kp true x) nd k true y) g kg false unc) = inord (J sg (J (opp sg) (J sg x nd k true y) p kp true sib) g kg false unc)).
      { rewrite J_opp. destruct sg; cbn [J inord]; lst. }
      destruct (FIN h1 p (J sg sib p kp true x) nd k y _ R1 BP YB YR IO (rt_J _ _ _ _ _ _)) as (h' & t' & A1 & A2).
      exists h', t'. split; [|exact A2]. rewrite <- A1. destruct (rotate (opp sg) (set_red (set_red h1 nd false) g true) g); reflexivity.
Qed.

(* ---- finding the place ---- *)
Definition keys (l : list (Z * nat)) : list Z := map fst l.
Definition srt (t : tr) : Prop := StronglySorted Z.lt (keys (inord t)).
Fixpoint height (t : tr) : nat := match t with E => O | T l _ _ _ r => S (Nat.max (height l) (height r)) end.
Lemma height_J s a n k c b : height (J s a n k c b) = S (Nat.max (height a) (height b)).
Proof. destruct s; cbn; lia. Qed.
Lemma height_plug cx : forall t, (length cx + height t <= height (plug cx t))%nat.
Proof.
  induction cx as [|f r IH]; intros t; cbn [plug length]; [lia|]. pose proof (IH (fill f t)) as H. unfold fill in H at 1. rewrite height_J in H. lia.
Qed.
Lemma ss_app (l r : list Z) : StronglySorted Z.lt (l ++ r) <-> StronglySorted Z.lt l /\ StronglySorted Z.lt r /\ forall x y, In x l -> In y r -> x < y.
Proof.
  induction l as [|a l IH]; cbn [app].
  - split; [intros H; split; [constructor|split; [exact H|intros x y []]]|tauto].
  - split.
    + intros H. apply StronglySorted_inv in H as [H1 H2]. apply IH in H1 as (H3 & H4 & H5). rewrite Forall_forall in H2.
      split; [constructor; [exact H3|]|]. { apply Forall_forall. intros x I. apply H2, in_app_iff. auto. }
      split; [exact H4|]. intros x y [<-|I] J; [apply H2, in_app_iff; auto|apply H5; assumption].
    + intros (H1 & H2 & H3). apply StronglySorted_inv in H1 as [H4 H5]. constructor.
      * apply IH. split; [exact H4|]. split; [exact H2|]. intros x y I J. apply H3; cbn; auto.
      * apply Forall_forall. intros x I. apply in_app_iff in I as [I|I]; [rewrite Forall_forall in H5; auto|apply H3; cbn; auto].
Qed.
Lemma keys_app l r : keys (l ++ r) = keys l ++ keys r. Proof. apply map_app. Qed.
Lemma srt_T cx l n k c r : srt (plug cx (T l n k c r)) ->
  (forall x, In x (keys (bef cx ++ inord l)) -> x < k) /\ (forall x, In x (keys (inord r ++ aft cx)) -> k < x).
Proof.
  unfold srt. rewrite inord_plug. cbn [inord]. intros H.
  replace (bef cx ++ (inord l ++ (k, n) :: inord r) ++ aft cx) with ((bef cx ++ inord l) ++ (k, n) :: (inord r ++ aft cx)) in H by lst.
  rewrite keys_app in H. apply ss_app in H as (_ & H1 & H2). cbn in H1. apply StronglySorted_inv in H1 as [_ H1]. rewrite Forall_forall in H1.
  split; [intros x I; apply H2; [exact I|cbn; auto]|exact H1].
Qed.

Lemma find_ok : forall fuel h k t P, tok h P t -> srt t -> (height t <= fuel)%nat ->
  exists o, find_from fuel h k (rt t) = Ok o /\ forall n, o = Some n <-> In (k, n) (inord t).
Proof.
  induction fuel as [|fuel IH]; intros h k t P K S H; destruct t as [|l n kn c r].
  - exists None. split; [reflexivity|]. intros m. cbn. split; [discriminate|contradiction].
  - cbn in H. lia.
  - exists None. split; [reflexivity|]. intros m. cbn. split; [discriminate|contradiction].
  - cbn [tok] in K. destruct K as (K1 & K2 & K3). cbn [rt find_from]. rewrite K1. cbn [key lft rgt]. cbn [height] in H.
    assert (SS : srt l /\ srt r).
    { unfold srt in *. cbn [inord] in S. rewrite keys_app in S. apply ss_app in S as (S1 & S2 & _). split; [exact S1|]. cbn in S2. apply StronglySorted_inv in S2. tauto. }
    destruct (srt_T [] l n kn c r S) as [BL BR]. cbn [bef aft app] in BL, BR. rewrite app_nil_r in BR.
    assert (IK : forall m x (L : list (Z * nat)), In (x, m) L -> In x (keys L)) by (intros m x L I; apply (in_map fst) in I; exact I).
    destruct (Z.ltb_spec k kn) as [LT|GE]; [|destruct (Z.ltb_spec kn k) as [GT|EQ]].
    + destruct (IH h k l _ K2 (proj1 SS) ltac:(lia)) as (o & E1 & E2). exists o. split; [exact E1|]. intros m. rewrite E2. cbn [inord]. rewrite in_app_iff. cbn [In].
      split; [tauto|]. intros [I|[I|I]]; [exact I|injection I; lia|apply IK, BR in I; lia].
    + destruct (IH h k r _ K3 (proj2 SS) ltac:(lia)) as (o & E1 & E2). exists o. split; [exact E1|]. intros m. rewrite E2. cbn [inord]. rewrite in_app_iff. cbn [In].
      split; [tauto|]. intros [I|[I|I]]; [apply IK, BL in I; lia|injection I; lia|exact I].
    + assert (k = kn) by lia. subst kn. exists (Some n). split; [reflexivity|]. intros m. cbn [inord]. rewrite in_app_iff. cbn [In]. split; [intros [= <-]; tauto|].
      intros [I|[I|I]]; [apply IK, BL in I; lia|congruence|apply IK, BR in I; lia].
Qed.

Lemma descend_ok : forall fuel cx l p kp c r h node k, (height (T l p kp c r) <= fuel)%nat -> rep h (plug cx (T l p kp c r)) -> srt (plug cx (T l p kp c r)) ->
  (forall x, In x (keys (bef cx)) -> x < k) -> (forall x, In x (keys (aft cx)) -> k < x) ->
  (descend fuel h node k p = Ok None /\ In k (keys (inord (T l p kp c r)))) \/
  exists f cx', descend fuel h node k p = Ok (Some (set_ch (fs f) h (fn f) (Some node), fn f)) /\ plug (f :: cx') E = plug cx (T l p kp c r) /\
    (forall x, In x (keys (bef (f :: cx'))) -> x < k) /\ (forall x, In x (keys (aft (f :: cx'))) -> k < x).
Proof.
  induction fuel as [|fuel IH]; intros cx l p kp c r h node k H R S B A; [cbn in H; lia|]. cbn [height] in H. cbn [descend].
  rewrite (rep_at h cx SL l p kp c r R). cbn [mkj key ch lft rgt]. destruct (srt_T _ _ _ _ _ _ S) as [SB SA]. rewrite keys_app in SB, SA.
  destruct (Z.ltb_spec k kp) as [LT|GE]; [|destruct (Z.ltb_spec kp k) as [GT|EQ]].
  - assert (B' : forall x, In x (keys (bef (F SL p kp c r :: cx))) -> x < k) by (cbn [bef fs]; rewrite app_nil_r; exact B).
    assert (A' : forall x, In x (keys (aft (F SL p kp c r :: cx))) -> k < x).
    { cbn [aft fs fk fn ft app]. cbn. intros x [<-|I]; [exact LT|]. rewrite map_app in I. specialize (SA x). unfold keys in SA. specialize (SA I). lia. }
    destruct l as [|ll n kn cn lr]; cbn [rt].
    + right. exists (F SL p kp c r), cx. split; [reflexivity|]. split; [reflexivity|]. auto.
    + change (plug cx (T (T ll n kn cn lr) p kp c r)) with (plug (F SL p kp c r :: cx) (T ll n kn cn lr)) in *.
      destruct (IH (F SL p kp c r :: cx) ll n kn cn lr h node k ltac:(lia) R S B' A') as [(D1 & D2)|D]; [|right; exact D].
      left. split; [exact D1|]. cbn [inord]. rewrite keys_app, in_app_iff. auto.
  - assert (A' : forall x, In x (keys (aft (F SR p kp c l :: cx))) -> k < x) by (cbn [aft fs app]; exact A).
    assert (B' : forall x, In x (keys (bef (F SR p kp c l :: cx))) -> x < k).
    { cbn [bef fs fk fn ft]. rewrite !keys_app. cbn. intros x I. rewrite !in_app_iff in I.
      destruct I as [I|[I|[<-|[]]]]; [apply B, I| |exact GT]. specialize (SB x). rewrite in_app_iff in SB. specialize (SB (or_intror I)). lia. }
    destruct r as [|rl n kn cn rr]; cbn [rt].
    + right. exists (F SR p kp c l), cx. split; [reflexivity|]. split; [reflexivity|]. auto.
    + change (plug cx (T l p kp c (T rl n kn cn rr))) with (plug (F SR p kp c l :: cx) (T rl n kn cn rr)) in *.
      destruct (IH (F SR p kp c l :: cx) rl n kn cn rr h node k ltac:(lia) R S B' A') as [(D1 & D2)|D]; [|right; exact D].
      left. split; [exact D1|]. cbn [inord]. rewrite keys_app, in_app_iff. right. cbn [keys map]. right. exact D2.
  - left. split; [reflexivity|]. cbn [inord]. rewrite keys_app, in_app_iff. right. cbn. left. lia.
Qed.

Lemma link_ok h f cx node k : rep h (plug (f :: cx) E) -> ~ In node (ids (plug (f :: cx) E)) ->
  rep (put (set_ch (fs f) h (fn f) (Some node)) node (mkn None None (Some (fn f)) true k)) (plug (f :: cx) (T E node k true E)).
Proof.
  intros (RO & K & ND) N. assert (ND' := ND). apply zip_nd in ND'. cbn [ids inord map app] in ND'.
  assert (N' : ~ In node (cids (f :: cx))).
  { intros I. apply N. eapply Permutation_in; [symmetry; apply ids_plug|]. apply in_app_iff. auto. }
  assert (FX : fn f <> node) by (intros <-; apply N'; cbn; auto).
  apply tok_plug in K as [C _]. split; [cbn [root put set_ch]; rewrite RO, !rt_plug; reflexivity|]. split.
  - apply tok_plug. split.
    + cbn [rt]. destruct f as [s p kp c t]. cbn [cok fn fs fk fc ft rt] in *. destruct C as (C1 & C2 & C3).
      cbn [cids flat_map fids fn ft app] in ND', N'. apply NoDup_cons_iff in ND' as [NP ND']. rewrite in_app_iff in NP. cbn [In] in N'. rewrite in_app_iff in N'.
      split; [rewrite put_other by exact FX; unfold set_ch; rewrite put_same, C1; destruct s; reflexivity|]. unfold cids in *.
      split; [apply tok_put; [tauto|]; apply tok_put; [tauto|exact C2]|apply cok_put; [unfold cids; tauto|]; apply cok_put; [unfold cids; tauto|exact C3]].
    + cbn [tok rt ptop]. rewrite put_same. auto.
  - apply zip_nd. cbn. constructor; assumption.
Qed.

Lemma root_black h t : rep h t -> forall r, root h = Some r -> rep (set_red h r false) (blacken t).
Proof.
  intros R r RR. destruct t as [|a n k c b]; [destruct R as [RO _]; cbn in RO; congruence|].
  assert (r = n) by (destruct R as [RO _]; cbn in RO; congruence). subst r. apply (recolor h [] SL a n k c b false R).
Qed.
Lemma inord_blacken t : inord (blacken t) = inord t. Proof. destruct t; reflexivity. Qed.

Lemma add_ok fuel h t node k : rep h t -> srt t -> rbt t -> ~ In node (ids t) -> (height t <= fuel)%nat ->
  (tree_add fuel h node k = Ok (h, -1) /\ In k (keys (inord t))) \/
  exists h' t' a b, tree_add fuel h node k = Ok (h', 0) /\ rep h' t' /\ srt t' /\ rbt t' /\ inord t = a ++ b /\ inord t' = a ++ (k, node) :: b /\ ~ In k (keys (inord t)).
Proof.
  intros R S V N H. unfold tree_add.
  assert (GO : forall cx h2, rep h2 (plug cx (T E node k true E)) -> plug cx E = t -> (forall x, In x (keys (bef cx)) -> x < k) -> (forall x, In x (keys (aft cx)) -> k < x) ->
    exists h' t' a b, (do h3 <- add_loop fuel h2 node (ptop cx None); do r <- at_ (root h3); Ok (set_red h3 r false, 0)) = Ok (h', 0) /\
      rep h' t' /\ srt t' /\ rbt t' /\ inord t = a ++ b /\ inord t' = a ++ (k, node) :: b /\ ~ In k (keys (inord t))).
  { intros cx h2 R2 PE B A. subst t. destruct (unplug _ _ V) as (n & B1 & B2 & _). cbn in B1. subst n. pose proof (height_plug cx E) as HP.
    destruct (add_loop_ok fuel cx E node k E 0 h2 ltac:(lia) R2 eq_refl eq_refl eq_refl eq_refl B2) as (h' & t' & E1 & R3 & I3 & V3).
    rewrite E1. cbn [bind]. destruct (root h') as [r|] eqn:RR.
    2:{ destruct R3 as [RO _]. rewrite RR in RO. destruct t'; [|discriminate]. rewrite inord_plug in I3. cbn in I3. destruct (bef cx); discriminate. }
    cbn [at_ bind]. exists (set_red h' r false), (blacken t'), (bef cx), (aft cx). split; [reflexivity|]. split; [apply root_black; assumption|].
    rewrite inord_plug in I3. cbn [inord app] in I3. rewrite inord_plug. cbn [inord app]. rewrite inord_blacken, I3.
    assert (NK : ~ In k (keys (bef cx ++ aft cx))).
    { rewrite keys_app, in_app_iff. intros [I|I]; [apply B in I|apply A in I]; lia. }
    split; [|auto]. unfold srt. rewrite inord_blacken, I3. unfold srt in S. rewrite inord_plug in S. cbn [inord app] in S. rewrite keys_app in S |- *.
    apply ss_app in S as (S1 & S2 & S3). apply ss_app. cbn. split; [exact S1|]. split; [constructor; [exact S2|apply Forall_forall; exact A]|].
    intros x y I [<-|J]; [apply B, I|apply S3; assumption]. }
  destruct t as [|l p kp c r].
  - destruct R as (RO & _ & _). cbn in RO. rewrite RO. cbn [bind]. right. apply (GO [] (put (set_root h (Some node)) node (mkn None None None true k))); try (intros x []); [|reflexivity].
    split; [reflexivity|]. cbn [plug tok ids inord map app]. rewrite put_same. split; [auto|]. constructor; [intros []|constructor].
  - assert (RO : root h = Some p) by apply R. rewrite RO.
    destruct (descend_ok fuel [] l p kp c r h node k H R S) as [(D1 & D2)|(f & cx & D1 & D2 & D3 & D4)]; try (intros x []).
    + left. rewrite D1. auto.
    + right. rewrite D1. cbn [bind]. change (plug [] (T l p kp c r)) with (T l p kp c r) in D2.
      apply (GO (f :: cx)); [|exact D2|exact D3|exact D4]. apply link_ok; rewrite D2; assumption.
Qed.

(* ---- taking out ---- *)
Lemma cok_app h c1 : forall c2 p P, cok h p (c1 ++ c2) P <-> cok h p c1 (ptop c2 P) /\ cok h (rtop c1 p) c2 P.
Proof.
  induction c1 as [|f r IH]; intros c2 p P; cbn [app cok rtop]; [tauto|]. rewrite IH.
  replace (ptop (r ++ c2) P) with (ptop r (ptop c2 P)) by (destruct r; reflexivity). tauto.
Qed.
Lemma plug_app c1 : forall c2 t, plug (c1 ++ c2) t = plug c2 (plug c1 t).
Proof. induction c1 as [|f r IH]; intros; cbn; [reflexivity|apply IH]. Qed.
Lemma cids_app c1 c2 : cids (c1 ++ c2) = cids c1 ++ cids c2. Proof. apply flat_map_app. Qed.
Lemma rtop_in cx p : cx <> [] -> exists x, rtop cx p = Some x /\ In x (cids cx).
Proof.
  revert p. induction cx as [|f r IH]; intros p N; [congruence|]. cbn [rtop]. destruct r as [|g r].
  - exists (fn f). cbn. auto.
  - destruct (IH (Some (fn f)) ltac:(discriminate)) as (x & X1 & X2). exists x. split; [exact X1|]. cbn [cids flat_map]. apply in_app_iff. auto.
Qed.
Lemma rtop_hole cx p q : cx <> [] -> rtop cx p = rtop cx q. Proof. destruct cx; [congruence|reflexivity]. Qed.

Definition relinked (h : tmem) (parent : option nat) (x : nat) (p : option nat) : tmem :=
  match parent with
  | Some pp => if is (lft (fld h pp)) (Some x) then set_ch SL h pp p else set_ch SR h pp p
  | None => set_root h p
  end.
Lemma relink h cx x p : root h = rtop cx (Some x) -> cok h (Some x) cx None -> NoDup (cids cx) -> ~ In x (cids cx) ->
  root (relinked h (ptop cx None) x p) = rtop cx p /\ cok (relinked h (ptop cx None) x p) p cx None /\
  forall y, ~ In y (cids cx) -> fld (relinked h (ptop cx None) x p) y = fld h y.
Proof.
  intros RO C ND NX. destruct cx as [|[s' pp kk c t] cx]; cbn [ptop relinked].
  - split; [reflexivity|]. split; [exact I|]. reflexivity.
  - cbn [cok fn fs fk fc ft] in C. destruct C as (C1 & C2 & C3). cbn [cids flat_map fids fn ft app] in NX, ND. apply NoDup_cons_iff in ND as [NPP ND].
    cbn [In] in NX. rewrite !in_app_iff in NPP, NX. cbn [fn]. rewrite C1.
    assert (IS : is (lft (mkj s' (Some x) (rt t) (ptop cx None) c kk)) (Some x) = match s' with SL => true | SR => false end).
    { destruct s'; cbn [mkj lft]; [apply is_spec; reflexivity|]. destruct (is (rt t) (Some x)) eqn:EQ; [|reflexivity]. apply is_spec in EQ. apply rt_in in EQ. tauto. }
    rewrite IS. destruct s'; (split; [exact RO|]); (split; [|intros y NY; apply put_other; intros ->; apply NY; left; reflexivity]);
      cbn [cok fn fs fk fc ft]; unfold set_ch; rewrite put_same, C1; (split; [reflexivity|]);
      (split; [apply tok_put; [tauto|exact C2]|apply cok_put; [unfold cids; tauto|exact C3]]).
Qed.

Definition reparented (h : tmem) (t : option nat) (P : option nat) : tmem := match t with Some x => set_par h x P | None => h end.
Lemma reparent h P P' t : tok h P t -> NoDup (ids t) -> tok (reparented h (rt t) P') P' t.
Proof.
  destruct t as [|l n k c r]; [auto|]. intros (A & B & C) ND. cbn [rt reparented tok]. unfold set_par. rewrite put_same, A.
  split; [reflexivity|]. change (T l n k c r) with (plug [] (J SL l n k c r)) in ND. apply nd_J in ND. apply NoDup_cons_iff in ND as [N _]. rewrite !in_app_iff in N.
  split; apply tok_put; tauto.
Qed.
Lemma reparented_other h t P y : (forall x, rt t = Some x -> y <> x) -> fld (reparented h (rt t) P) y = fld h y.
Proof. destruct t; [reflexivity|]. cbn. intros X. unfold upd. destruct (Nat.eqb_spec y n); [|reflexivity]. destruct (X n eq_refl e). Qed.
Lemma reparented_root h t P : root (reparented h t P) = root h. Proof. destruct t; reflexivity. Qed.

Lemma nd_mid (l1 l2 : list nat) x : NoDup (l1 ++ x :: l2) -> ~ In x l1 /\ ~ In x l2 /\ NoDup l1 /\ NoDup l2.
Proof.
  intros H. apply NoDup_remove in H as [H1 H2]. rewrite in_app_iff in H2. apply nodup_app in H1. tauto.
Qed.

(* a node with at most one child *)
Lemma splice_one h cx s n k c o : rep h (plug cx (J s o n k c E)) ->
  rep (reparented (relinked h (ptop cx None) n (rt o)) (rt o) (ptop cx None)) (plug cx o).
Proof.
  intros (RO & K & ND). rewrite rt_plug, rt_J in RO. apply tok_plug in K as [C K]. rewrite rt_J in C. apply tok_J in K as (_ & K & _).
  apply nd_J in ND. cbn [ids inord map app] in ND. apply NoDup_cons_iff in ND as [N ND]. rewrite in_app_iff in N. assert (ND' := ND). apply nodup_app in ND' as (N1 & N2 & X).
  destruct (relink h cx n (rt o) RO C N2 ltac:(tauto)) as (R1 & R2 & R3).
  split; [rewrite reparented_root, R1, rt_plug; reflexivity|]. split; [|apply zip_nd; exact ND].
  apply tok_plug. split.
  - eapply cok_ext; [|exact R2]. intros y I. apply reparented_other. intros x RX ->. apply rt_in in RX. exact (X x RX I).
  - eapply reparent; [|exact N1]. eapply tok_ext; [|exact K]. intros y I. apply R3, X, I.
Qed.

Lemma path_hole h f path p p' P : fs f = SL -> NoDup (cids (f :: path)) -> cok h p (f :: path) P -> cok (set_ch SL h (fn f) p') p' (f :: path) P.
Proof.
  destruct f as [s n k c t]. cbn [fs]. intros -> ND. cbn [cids flat_map fids fn ft app] in ND. apply NoDup_cons_iff in ND as [N ND]. rewrite in_app_iff in N.
  cbn [cok fn fs fk fc ft]. intros (A & B & C). unfold set_ch. rewrite put_same, A. split; [reflexivity|].
  split; [apply tok_put; [tauto|exact B]|apply cok_put; [unfold cids; tauto|exact C]].
Qed.
Lemma path_par h path P P' x : NoDup (cids path) -> forall p, path <> [] -> rtop path p = Some x -> cok h p path P -> cok (set_par h x P') p path P'.
Proof.
  intros ND. induction path as [|[s n k c t] path IH]; intros p NE; [congruence|]. cbn [cids flat_map fids fn ft app] in ND. apply NoDup_cons_iff in ND as [N ND].
  rewrite in_app_iff in N. fold (cids path) in N, ND. cbn [rtop cok fn fs fk fc ft]. intros RX (A & B & C). destruct path as [|g path].
  - cbn in RX. injection RX as <-. cbn [ptop cok] in *. unfold set_par. rewrite put_same, A. split; [destruct s; reflexivity|]. split; [|exact I]. apply tok_put; [tauto|exact B].
  - apply nodup_app in ND as (N1 & N2 & X). destruct (rtop_in (g :: path) (Some n) ltac:(discriminate)) as (y & Y1 & Y2). rewrite RX in Y1. injection Y1 as <-.
    split; [unfold set_par; rewrite put_other by (intros ->; tauto); exact A|]. split.
    + apply tok_put; [|exact B]. intros I. exact (X x I Y2).
    + apply (IH N2 (Some n) ltac:(discriminate) RX C).
Qed.

Lemma leftmost_ok h : forall t P fuel, tok h P t -> t <> E -> (height t <= fuel)%nat ->
  exists path s ks cs rr x, rt t = Some x /\ leftmost fuel h x = Ok s /\ t = plug path (T E s ks cs rr) /\ Forall (fun f => fs f = SL) path.
Proof.
  induction t as [|l IHl n k c r IHr]; intros P fuel K NE H; [congruence|]. cbn [tok height] in *. destruct K as (K1 & K2 & K3). destruct fuel as [|fuel]; [lia|].
  destruct l as [|ll ln lk lc lr].
  - exists [], n, k, c, r, n. split; [reflexivity|]. split; [cbn [leftmost]; rewrite K1; reflexivity|]. split; [reflexivity|constructor].
  - destruct (IHl (Some n) fuel K2 ltac:(discriminate) ltac:(lia)) as (path & s & ks & cs & rr & x & X1 & X2 & X3 & X4).
    exists (path ++ [F SL n k c r]), s, ks, cs, rr, n. split; [reflexivity|]. split; [cbn [leftmost]; rewrite K1; cbn [lft]; rewrite X1; exact X2|].
    split; [rewrite plug_app, <- X3; reflexivity|]. apply Forall_app. split; [exact X4|]. constructor; [reflexivity|constructor].
Qed.

Lemma perm_help1 (n : nat) A B L C : Permutation (A ++ B ++ n :: L ++ C) (n :: L ++ A ++ B ++ C).
Proof. rewrite app_assoc, <- Permutation_middle. constructor. rewrite app_assoc, (Permutation_app_comm _ L), <- !app_assoc. reflexivity. Qed.
Lemma perm_help (n s : nat) A B L C : Permutation (s :: A ++ B ++ n :: L ++ C) (n :: s :: L ++ A ++ B ++ C).
Proof. rewrite perm_help1. apply perm_swap. Qed.

(* a node with two children: the next one takes its place *)
Lemma splice_two h cx l n k c path s ks cs rr ln rn : rep h (plug (path ++ F SR n k c l :: cx) (T E s ks cs rr)) -> Forall (fun f => fs f = SL) path ->
  rt l = Some ln -> rtop path (Some s) = Some rn ->
  exists h2 pp, pp = ptop (path ++ [F SR s ks c l]) None /\
   (let h1 := relinked h (ptop cx None) n (Some s) in
    let rd := red (fld h1 s) in
    let h2 := set_red h1 s (red (fld h1 n)) in
    let h3 := set_ch SL h2 s (rt l) in
    let h4 := set_par h3 ln (Some s) in
    (if negb (is (Some s) (Some rn)) then
       do pp <- at_ (par (fld h4 s));
       let h5 := set_par h4 s (par (fld h4 n)) in
       let nd := rgt (fld h5 s) in
       let h6 := set_ch SL h5 pp nd in
       let h7 := set_ch SR h6 s (Some rn) in
       let h8 := set_par h7 rn (Some s) in
       Ok (h8, rd, nd, Some pp)
     else
       let h5 := set_par h4 s (ptop cx None) in
       Ok (h5, rd, rgt (fld h5 s), Some s))) = Ok (h2, cs, rt rr, pp) /\
   rep (reparented h2 (rt rr) pp) (plug (path ++ F SR s ks c l :: cx) rr).
Proof.
  intros (RO & K & ND) SL_ LN RN.
  assert (NDX : NoDup (n :: s :: ids l ++ ids rr ++ cids path ++ cids cx)).
  { apply zip_nd in ND. eapply Permutation_NoDup; [|exact ND]. rewrite ids_T, cids_app. cbn [ids inord map app cids flat_map fids fn ft].
    apply perm_help. }
  clear ND. rewrite rt_plug in RO. cbn [rt] in RO.
  apply tok_plug in K as [C K]. cbn [rt] in C. apply cok_app in C as [CP C]. cbn [ptop fn cok fs fk fc ft] in CP, C. destruct C as (FN & KL & CX).
  cbn [tok rt] in K. destruct K as (FS & _ & KR).
  assert (NDR : NoDup (ids (plug (path ++ F SR s ks c l :: cx) rr))).
  { apply zip_nd. rewrite cids_app. cbn [cids flat_map fids fn ft app]. fold (ids l). fold (cids path). fold (cids cx).
    apply NoDup_cons_iff in NDX as [_ NDX]. eapply Permutation_NoDup; [|exact NDX]. symmetry. apply perm_help1. }
  apply NoDup_cons_iff in NDX as [NN NDX]. apply NoDup_cons_iff in NDX as [NS NDX]. cbn [In] in NN. rewrite !in_app_iff in NN, NS.
  apply nodup_app in NDX as (NL & NDX & XL). apply nodup_app in NDX as (NR & NDX & XR). apply nodup_app in NDX as (NP & NC & XP).
  assert (LIN : In ln (ids l)) by (apply rt_in; exact LN). assert (XLN := XL ln LIN). rewrite !in_app_iff in XLN.
  assert (NSN : s <> n) by (intros ->; tauto). assert (NSL : ln <> s) by (intros ->; tauto). assert (NNL : ln <> n) by (intros ->; tauto).
  assert (RO' : root h = rtop cx (Some n)).
  { rewrite RO. clear. assert (X : forall c1 p, rtop (c1 ++ F SR n k c l :: cx) p = rtop cx (Some n)) by (induction c1; intros; cbn; auto). apply X. }
  destruct (relink h cx n (Some s) RO' CX NC ltac:(tauto)) as (R1 & R2 & R3).
  cbv zeta. set (h1 := relinked h (ptop cx None) n (Some s)) in *. clearbody h1.
  assert (F1S : fld h1 s = mkn None (rt rr) (ptop (path ++ F SR n k c l :: cx) None) cs ks) by (rewrite R3 by tauto; exact FS).
  assert (F1N : fld h1 n = mkj SR (rtop path (Some s)) (rt l) (ptop cx None) c k) by (rewrite R3 by tauto; exact FN).
  assert (L1 : tok h1 (Some n) l) by (eapply tok_ext; [|exact KL]; intros x I; apply R3; specialize (XL x I); rewrite !in_app_iff in XL; tauto).
  assert (RR1 : tok h1 (Some s) rr) by (eapply tok_ext; [|exact KR]; intros x I; apply R3; specialize (XR x I); rewrite !in_app_iff in XR; tauto).
  assert (P1 : cok h1 (Some s) path (Some n)) by (eapply cok_ext; [|exact CP]; intros x I; apply R3; exact (XP x I)).
  clear R3 KL KR CP CX FS FN RO RO' h. rewrite F1N. cbn [mkj red].
  set (h2 := set_red h1 s c).
  assert (F2S : fld h2 s = mkn None (rt rr) (ptop (path ++ F SR n k c l :: cx) None) c ks) by (unfold h2, set_red; rewrite put_same, F1S; reflexivity).
  set (h3 := set_ch SL h2 s (rt l)).
  assert (F3S : fld h3 s = mkn (rt l) (rt rr) (ptop (path ++ F SR n k c l :: cx) None) c ks) by (unfold h3, set_ch; rewrite put_same, F2S; reflexivity).
  assert (F3N : fld h3 n = mkj SR (rtop path (Some s)) (rt l) (ptop cx None) c k) by (unfold h3, h2, set_ch, set_red; rewrite !put_other by congruence; exact F1N).
  assert (L3 : tok h3 (Some n) l) by (unfold h3, h2, set_ch, set_red; repeat (apply tok_put; [tauto|]); exact L1).
  assert (RR3 : tok h3 (Some s) rr) by (unfold h3, h2, set_ch, set_red; repeat (apply tok_put; [tauto|]); exact RR1).
  assert (P3 : cok h3 (Some s) path (Some n)) by (unfold h3, h2, set_ch, set_red; repeat (apply cok_put; [tauto|]); exact P1).
  assert (C3 : cok h3 (Some s) cx None) by (unfold h3, h2, set_ch, set_red; repeat (apply cok_put; [tauto|]); exact R2).
  assert (R3 : root h3 = rtop cx (Some s)) by exact R1.
  clearbody h3. clear h2 F2S F1N L1 RR1 P1 R1 R2.
  rewrite F1S. cbn [red]. clear F1S h1.
  set (h4 := set_par h3 ln (Some s)).
  assert (L4 : tok h4 (Some s) l). { pose proof (reparent h3 (Some n) (Some s) l L3 NL) as X. rewrite LN in X. exact X. }
  assert (F4S : fld h4 s = mkn (rt l) (rt rr) (ptop (path ++ F SR n k c l :: cx) None) c ks) by (unfold h4, set_par; rewrite put_other by congruence; exact F3S).
  assert (F4N : fld h4 n = mkj SR (rtop path (Some s)) (rt l) (ptop cx None) c k) by (unfold h4, set_par; rewrite put_other by congruence; exact F3N).
  assert (RR4 : tok h4 (Some s) rr) by (unfold h4, set_par; apply tok_put; [tauto|exact RR3]).
  assert (P4 : cok h4 (Some s) path (Some n)) by (unfold h4, set_par; apply cok_put; [tauto|exact P3]).
  assert (C4 : cok h4 (Some s) cx None) by (unfold h4, set_par; apply cok_put; [tauto|exact C3]).
  assert (R4 : root h4 = rtop cx (Some s)) by exact R3.
  clearbody h4. clear h3 F3S F3N L3 RR3 P3 C3 R3.
  destruct path as [|[sf pn pk pc pt] path].
  - (* the right child is the next one *)
    cbn in RN. injection RN as <-. rewrite (proj2 (is_spec (Some s) (Some s)) eq_refl). cbn [negb]. cbn [app ptop fn].
    set (h5 := set_par h4 s (ptop cx None)).
    assert (F5S : fld h5 s = mkn (rt l) (rt rr) (ptop cx None) c ks) by (unfold h5, set_par; rewrite put_same, F4S; reflexivity).
    rewrite F5S. cbn [rgt]. exists h5, (Some s). split; [reflexivity|]. split; [reflexivity|].
    assert (RR5 : tok h5 (Some s) rr) by (unfold h5, set_par; apply tok_put; [tauto|exact RR4]).
    assert (L5 : tok h5 (Some s) l) by (unfold h5, set_par; apply tok_put; [tauto|exact L4]).
    assert (C5 : cok h5 (Some s) cx None) by (unfold h5, set_par; apply cok_put; [tauto|exact C4]).
    assert (Q : forall x, rt rr = Some x -> ~ In x (ids l) /\ ~ In x (cids cx) /\ s <> x).
    { intros x RX. apply rt_in in RX. specialize (XR x RX). rewrite !in_app_iff in XR. split; [intros I; apply (XL x I); rewrite !in_app_iff; tauto|]. split; [tauto|intros ->; tauto]. }
    split; [rewrite reparented_root; change (root h5) with (root h4); rewrite R4, rt_plug; reflexivity|]. split; [|exact NDR].
    apply tok_plug. cbn [app cok fn fs fk fc ft ptop]. split.
    + split; [rewrite reparented_other; [exact F5S|intros x RX; apply (Q x RX)]|]. split.
      * eapply tok_ext; [|exact L5]. intros y I. apply reparented_other. intros x RX ->. pose proof (Q x RX); tauto.
      * eapply cok_ext; [|exact C5]. intros y I. apply reparented_other. intros x RX ->. pose proof (Q x RX); tauto.
    + eapply reparent; [exact RR5|exact NR].
  - (* it is further down *)
    set (path0 := F sf pn pk pc pt :: path) in *.
    assert (SF : sf = SL) by (apply Forall_inv in SL_; exact SL_).
    assert (PNI : In pn (cids path0)) by (cbn; auto).
    destruct (rtop_in path0 (Some s) ltac:(discriminate)) as (rn' & RN1 & RNI). rewrite RN in RN1. injection RN1 as <-.
    assert (SRN : s <> rn) by (intros ->; tauto). assert (SPN : s <> pn) by (intros ->; tauto).
    replace (is (Some s) (Some rn)) with false by (symmetry; cbn; apply Nat.eqb_neq; exact SRN). cbn [negb].
    rewrite F4S. change (par (mkn (rt l) (rt rr) (ptop (path0 ++ F SR n k c l :: cx) None) c ks)) with (Some pn). cbn [at_ bind].
    rewrite F4N. cbn [mkj par].
    set (h5 := set_par h4 s (ptop cx None)).
    assert (F5S : fld h5 s = mkn (rt l) (rt rr) (ptop cx None) c ks) by (unfold h5, set_par; rewrite put_same, F4S; reflexivity).
    rewrite F5S. cbn [rgt].
    assert (P5 : cok h5 (Some s) path0 (Some n)) by (unfold h5, set_par; apply cok_put; [tauto|exact P4]).
    set (h6 := set_ch SL h5 pn (rt rr)).
    assert (P6 : cok h6 (rt rr) path0 (Some n)) by (apply (path_hole h5 (F sf pn pk pc pt)) with (p := Some s); [exact SF|exact NP|exact P5]).
    assert (F6S : fld h6 s = mkn (rt l) (rt rr) (ptop cx None) c ks) by (unfold h6, set_ch; rewrite put_other by exact SPN; exact F5S).
    set (h7 := set_ch SR h6 s (Some rn)).
    assert (P7 : cok h7 (rt rr) path0 (Some n)) by (unfold h7, set_ch; apply cok_put; [tauto|exact P6]).
    assert (F7S : fld h7 s = mkn (rt l) (Some rn) (ptop cx None) c ks) by (unfold h7, set_ch; rewrite put_same, F6S; reflexivity).
    set (h8 := set_par h7 rn (Some s)).
    assert (P8 : cok h8 (rt rr) path0 (Some s)) by (apply (path_par h7 path0 (Some n)); [exact NP|discriminate|exact RN|exact P7]).
    assert (F8S : fld h8 s = mkn (rt l) (Some rn) (ptop cx None) c ks) by (unfold h8, set_par; rewrite put_other by exact SRN; exact F7S).
    assert (XRN := XP rn RNI). assert (XPN := XP pn PNI).
    assert (LRN : ~ In rn (ids l)) by (intros I; apply (XL rn I); rewrite !in_app_iff; tauto).
    assert (LPN : ~ In pn (ids l)) by (intros I; apply (XL pn I); rewrite !in_app_iff; tauto).
    assert (RRN : ~ In rn (ids rr)) by (intros I; apply (XR rn I); rewrite !in_app_iff; tauto).
    assert (RPN : ~ In pn (ids rr)) by (intros I; apply (XR pn I); rewrite !in_app_iff; tauto).
    assert (L8 : tok h8 (Some s) l) by (unfold h8, h7, h6, h5, set_par, set_ch; repeat (apply tok_put; [tauto|]); exact L4).
    assert (RR8 : tok h8 (Some s) rr) by (unfold h8, h7, h6, h5, set_par, set_ch; repeat (apply tok_put; [tauto|]); exact RR4).
    assert (C8 : cok h8 (Some s) cx None) by (unfold h8, h7, h6, h5, set_par, set_ch; repeat (apply cok_put; [tauto|]); exact C4).
    assert (R8 : root h8 = rtop cx (Some s)) by exact R4.
    clearbody h8. exists h8, (Some pn). split; [reflexivity|]. split; [reflexivity|].
    assert (Q : forall x, rt rr = Some x -> ~ In x (ids l) /\ ~ In x (cids cx) /\ ~ In x (cids path0) /\ s <> x).
    { intros x RX. apply rt_in in RX. specialize (XR x RX). rewrite !in_app_iff in XR. split; [intros I; apply (XL x I); rewrite !in_app_iff; tauto|]. split; [tauto|]. split; [tauto|intros ->; tauto]. }
    split.
    { rewrite reparented_root, R8, rt_plug. generalize (rt rr), path0. intros p1 c1. revert p1. induction c1 as [|g c1 IH]; intros p1; cbn; [reflexivity|apply IH]. }
    split; [|exact NDR]. apply tok_plug. split.
    + apply cok_app. cbn [ptop fn cok fs fk fc ft mkj]. split; [eapply cok_ext; [|exact P8]; intros y I; apply reparented_other; intros x RX ->; pose proof (Q x RX); tauto|].
      split; [rewrite reparented_other; [|intros x RX; apply (Q x RX)]; rewrite F8S; rewrite (rtop_hole path0 (rt rr) (Some s)) by discriminate; rewrite RN; reflexivity|]. split.
      * eapply tok_ext; [|exact L8]. intros y I. apply reparented_other. intros x RX ->. pose proof (Q x RX); tauto.
      * eapply cok_ext; [|exact C8]. intros y I. apply reparented_other. intros x RX ->. pose proof (Q x RX); tauto.
    + change (ptop (path0 ++ F SR s ks c l :: cx) None) with (Some pn). eapply reparent; [exact RR8|exact NR].
Qed.

(* ---- after taking out a black node ---- *)
Lemma redp_kids h cx s a q k c b : rep h (plug cx (J s a q k c b)) ->
  redp h (lft (fld h q)) || redp h (rgt (fld h q)) = isred a || isred b /\ redp h (ch (opp s) (fld h q)) = isred b.
Proof.
  intros R. assert (A : redp h (rt a) = isred a) by (apply (redp_at h (F s q k c b :: cx) a); exact R).
  assert (B : redp h (rt b) = isred b).
  { apply (redp_at h (F (opp s) q k c a :: cx) b). cbn [plug]. unfold fill. cbn [fs fn fk fc ft]. rewrite J_opp. exact R. }
  rewrite (rep_at _ _ _ _ _ _ _ _ R), ch_mkj_trans, B. split; [|reflexivity]. destruct s; cbn [mkj lft rgt]; rewrite A, B; [reflexivity|apply orb_comm].
Qed.
Lemma bh_nonempty t m : bh t (S m) -> exists a n k c b, t = T a n k c b.
Proof. destruct t as [|a n k c b]; [discriminate|]. intros _. exists a, n, k, c, b. reflexivity. Qed.
Lemma as_J s a n k c b : exists x y, T a n k c b = J s x n k c y.
Proof. destruct s; [exists a, b|exists b, a]; reflexivity. Qed.

(* the sibling is black *)
Lemma remove_black s h cx o p kp cp a q kq b m : rep h (plug cx (J s o p kp cp (J s a q kq false b))) -> bh o m -> bh a m -> bh b m -> isred o = false ->
  bhc cx (if cp then S m else S (S m)) -> (cp = true -> black_top cx) ->
  exists h' broke,
    (if redp h (lft (fld h q)) || redp h (rgt (fld h q)) then
       do x <- (if negb (redp h (ch (opp s) (fld h q))) then
               do c <- at_ (ch s (fld h q));
               let h := set_red h c false in
               let h := set_red h q true in
               do h <- rotate (opp s) h q;
               do sibling <- at_ (ch (opp s) (fld h p));
               Ok (h, sibling)
             else Ok (h, q));
       let (h, sibling) := x in
       let h := set_red h sibling (red (fld h p)) in
       do t <- at_ (ch (opp s) (fld h sibling));
       let h := set_red h t false in
       let h := set_red h p false in
       do h <- rotate s h p;
       Ok (h, true)
     else Ok (set_red h q true, false)) = Ok (h', broke) /\
    if broke : bool then exists t', rep h' t' /\ rbt t' /\ inord t' = inord (plug cx (J s o p kp cp (J s a q kq false b)))
    else exists q', rep h' (plug cx (J s o p kp cp q')) /\ bh q' m /\ inord (J s o p kp cp q') = inord (J s o p kp cp (J s a q kq false b)).
Proof.
  intros R BO BA BB IO BC BT.
  assert (RQ : rep h (plug (F (opp s) p kp cp o :: cx) (J s a q kq false b))) by (cbn [plug]; unfold fill; cbn [fs fn fk fc ft]; rewrite J_opp; exact R).
  destruct (redp_kids _ _ _ _ _ _ _ _ RQ) as [K1 K2]. rewrite K1, K2.
  (* the last rotation *)
  assert (FIN : forall h1 a1 q1 kq1 cq1 b1, rep h1 (plug cx (J s o p kp cp (J s a1 q1 kq1 cq1 b1))) -> bh a1 m -> bh b1 m -> isred b1 = true ->
     inord (J s o p kp cp (J s a1 q1 kq1 cq1 b1)) = inord (J s o p kp cp (J s a q kq false b)) ->
     exists h', (let h := set_red h1 q1 (red (fld h1 p)) in do t <- at_ (ch (opp s) (fld h q1));
        let h := set_red h t false in let h := set_red h p false in do h <- rotate s h p; Ok (h, true)) = Ok (h', true) /\
       exists t', rep h' t' /\ rbt t' /\ inord t' = inord (plug cx (J s o p kp cp (J s a q kq false b)))).
  { intros h1 a1 q1 kq1 cq1 b1 R1 B1 B2 IB IN. cbv zeta. rewrite (rep_at _ _ _ _ _ _ _ _ R1), red_mkj.
    assert (R2 : rep h1 (plug (F (opp s) p kp cp o :: cx) (J s a1 q1 kq1 cq1 b1))) by (cbn [plug]; unfold fill; cbn [fs fn fk fc ft]; rewrite J_opp; exact R1).
    apply (recolor _ _ _ _ _ _ _ _ cp) in R2. rewrite (rep_at _ _ _ _ _ _ _ _ R2), ch_mkj_trans.
    destruct b1 as [|bl y ky cy br]; [discriminate|]. cbn in IB. subst cy. cbn [rt at_ bind].
    assert (R3 : rep (set_red h1 q1 cp) (plug (F (opp s) q1 kq1 cp a1 :: F (opp s) p kp cp o :: cx) (J SL bl y ky true br))).
    { cbn [plug]. unfold fill. cbn [fs fn fk fc ft]. rewrite (J_opp s _ q1). exact R2. }
    apply (recolor _ _ _ _ _ _ _ _ false) in R3. zz R3. rewrite (J_opp s _ p), (J_opp s _ q1) in R3.
    apply (recolor _ _ _ _ _ _ _ _ false) in R3. destruct (rotate_ok _ _ _ _ _ _ _ _ _ _ _ _ R3) as (h5 & E5 & R5). rewrite E5. cbn [bind].
    exists h5. split; [reflexivity|]. eexists. split; [exact R5|]. split.
    - assert (BB1 : bh (J SL bl y ky false br) (S m)) by (cbn in B2 |- *; tauto).
      assert (BP : bh (J s o p kp false a1) (S m)) by (apply bh_J; tauto).
      destruct cp.
      + apply (replug _ _ (S m)); [|exact BC|intros _; auto]. apply bh_J. rewrite isred_J. tauto.
      + apply (replug _ _ (S (S m))); [|exact BC|rewrite isred_J; discriminate]. apply bh_J. tauto.
    - rewrite !inord_plug, <- IN. do 2 f_equal. destruct s; cbn [J inord]; lst. }
  destruct (isred a || isred b) eqn:KK.
  - destruct (isred b) eqn:IB; cbn [negb].
    + cbn [bind]. destruct (FIN h a q kq false b R BA BB IB eq_refl) as (h' & X1 & X2). exists h', true. split; [exact X1|exact X2].
    + rewrite orb_false_r in KK. destruct a as [|al x kx ca ar]; [discriminate|]. cbn in KK. subst ca. destruct (as_J s al x kx true ar) as (a1 & a2 & AE). rewrite AE in *.
      rewrite (rep_at _ _ _ _ _ _ _ _ RQ), ch_mkj_cis, rt_J. cbn [at_ bind].
      apply bh_J in BA. destruct BA as (A1 & A2 & A3 & A4).
      assert (RX : rep h (plug (F s q kq false b :: F (opp s) p kp cp o :: cx) (J s a1 x kx true a2))) by exact RQ.
      apply (recolor _ _ _ _ _ _ _ _ false) in RX. zz RX.
      change (rep (set_red h x false) (plug (F (opp s) p kp cp o :: cx) (J s (J s a1 x kx false a2) q kq false b))) in RX.
      apply (recolor _ _ _ _ _ _ _ _ true) in RX. rewrite <- (J_opp s a2 x), <- (J_opp s b q) in RX.
      destruct (rotate_ok _ _ _ _ _ _ _ _ _ _ _ _ RX) as (h5 & E5 & R5). rewrite E5. cbn [bind]. rewrite !(J_opp s _ x), !(J_opp s _ q) in R5. zz R5. rewrite (J_opp s _ p) in R5.
      rewrite (rep_at _ _ _ _ _ _ _ _ R5), ch_mkj_trans, rt_J. cbn [at_ bind].
      assert (B3 : bh (J s a2 q kq true b) m) by (apply bh_J; tauto).
      assert (IN : inord (J s o p kp cp (J s a1 x kx false (J s a2 q kq true b))) = inord (J s o p kp cp (J s (J s a1 x kx true a2) q kq false b))) by (destruct s; cbn [J inord]; lst).
      destruct (FIN h5 a1 x kx false (J s a2 q kq true b) R5 A3 B3 (isred_J _ _ _ _ _ _) IN) as (h' & X1 & X2). exists h', true. split; [exact X1|exact X2].
  - apply orb_false_iff in KK as [KA KB]. exists (set_red h q true), false. split; [reflexivity|]. exists (J s a q kq true b).
    apply (recolor _ _ _ _ _ _ _ _ true) in RQ. zz RQ. rewrite J_opp in RQ. split; [exact RQ|]. split; [apply bh_J; tauto|]. destruct s; reflexivity.
Qed.

Lemma del_loop_ok : forall cx fuel o m h, (length cx < fuel)%nat -> rep h (plug cx o) -> isred o = false -> bh o m -> bhc cx (S m) ->
  exists h' nd' t', del_loop fuel h (rt o) (ptop cx None) = Ok (h', nd') /\
    rep (match nd' with Some n => set_red h' n false | None => h' end) t' /\ inord t' = inord (plug cx o) /\ rbt t'.
Proof.
  induction cx as [|[s p kp cp sib] cx IH]; intros fuel o m h LF R IO BO BC; (destruct fuel as [|fuel]; [lia|]); cbn [del_loop].
  { assert (RO : root h = rt o) by apply R. rewrite RO, (proj2 (is_spec _ _) eq_refl). exists h, (rt o), o. split; [reflexivity|]. cbn [plug] in *. split; [|split; [reflexivity|split; [exact IO|eauto]]].
    destruct o as [|l n k c r]; [exact R|]. cbn in IO. subst c. cbn [rt]. apply (recolor h [] SL l n k false r false R). }
  assert (RO := rep_root _ _ _ R). cbn [bhc fc ft] in BC. destruct BC as (BS & BT & BC).
  assert (NIS : is (rt o) (root h) = false).
  { destruct (is (rt o) (root h)) eqn:EQ; [|reflexivity]. apply is_spec in EQ. rewrite RO in EQ.
    destruct (rtop_in (F s p kp cp sib :: cx) (rt o) ltac:(discriminate)) as (x & X1 & X2). rewrite X1 in EQ. apply rt_in in EQ.
    destruct R as (_ & _ & ND). apply zip_nd in ND. apply nodup_app in ND as (_ & _ & ND). destruct (ND x EQ X2). }
  rewrite NIS. cbn [ptop fn at_ bind]. zz R.
  destruct (bh_nonempty _ _ BS) as (sl & q & kq & cq & sr & SE).
  assert (SD : rt sib <> rt o).
  { rewrite SE. cbn [rt]. destruct o as [|ol x kx cx_ or]; [discriminate|]. cbn [rt]. intros EQ. injection EQ as <-.
    eapply (kids_differ _ _ _ _ _ _ _ _ q R); [reflexivity|]. rewrite SE. reflexivity. }
  rewrite (side_found _ _ _ _ _ _ _ _ _ R eq_refl SD). cbn [length] in LF.
  destruct (as_J s sl q kq cq sr) as (a & b & SJ). rewrite SJ in SE. subst sib. clear SJ sl sr. apply bh_J in BS.
  rewrite isred_J in BT.
  (* what follows a round *)
  assert (NEXT : forall h1 c1 q' z, rep h1 (plug cx (J s o p kp c1 q')) -> bh q' m -> inord (J s o p kp c1 q') = inord z ->
     bhc cx (if c1 then S m else S (S m)) -> 
     exists h' nd' t', (if red (fld h1 p) then Ok (h1, Some p) else del_loop fuel h1 (Some p) (par (fld h1 p))) = Ok (h', nd') /\
       rep (match nd' with Some n => set_red h' n false | None => h' end) t' /\ inord t' = inord (plug cx z) /\ rbt t').
  { intros h1 c1 q' z R1 BQ IZ BC1. rewrite (rep_at _ _ _ _ _ _ _ _ R1), red_mkj, par_mkj. destruct c1.
    - exists h1, (Some p), (plug cx (J s o p kp false q')). split; [reflexivity|]. split; [eapply recolor; exact R1|]. split; [rewrite !inord_plug, <- IZ; destruct s; reflexivity|].
      apply (replug _ _ (S m)); [apply bh_J; tauto|exact BC1|rewrite isred_J; discriminate].
    - destruct (IH fuel (J s o p kp false q') (S m) h1 ltac:(lia) R1 (isred_J _ _ _ _ _ _)) as (h' & nd' & t' & X1 & X2 & X3 & X4); [apply bh_J; tauto|exact BC1|].
      rewrite rt_J in X1. exists h', nd', t'. split; [exact X1|]. split; [exact X2|]. split; [|exact X4]. rewrite X3, !inord_plug, IZ. reflexivity. }
  assert (ROOT : forall h1 t1, rep h1 t1 -> rbt t1 -> rep (match root h1 with Some n => set_red h1 n false | None => h1 end) t1).
  { intros h1 t1 R1 V1. destruct (root h1) as [r|] eqn:RR; [|exact R1]. rewrite <- (blacken_id t1) by apply V1. apply root_black; assumption. }
  unfold rebalance_remove.
  assert (CH0 : ch (opp s) (fld h p) = Some q) by (rewrite (rep_at _ _ _ _ _ _ _ _ R), ch_mkj_trans, rt_J; reflexivity). rewrite CH0. cbn [at_ bind].
  assert (RQ : rep h (plug (F (opp s) p kp cp o :: cx) (J s a q kq cq b))) by (cbn [plug]; unfold fill; cbn [fs fn fk fc ft]; rewrite J_opp; exact R).
  assert (RC : red (fld h q) = cq) by (rewrite (rep_at _ _ _ _ _ _ _ _ RQ), red_mkj; reflexivity). rewrite RC. destruct cq.
  - (* red sibling *)
    destruct BS as (SA & SB & BA & BB). destruct cp; [destruct (BT eq_refl); discriminate|].
    apply (recolor _ _ _ _ _ _ _ _ false) in RQ. zz RQ. rewrite J_opp in RQ. apply (recolor _ _ _ _ _ _ _ _ true) in RQ.
    destruct (rotate_ok _ _ _ _ _ _ _ _ _ _ _ _ RQ) as (h1 & E1 & R1). rewrite E1. cbn [bind].
    change (rep h1 (plug (F s q kq false b :: cx) (J s o p kp true a))) in R1.
    destruct (bh_nonempty _ _ BA) as (al & x & kx & cx_ & ar & AE). destruct (as_J s al x kx cx_ ar) as (a1 & a2 & AJ). rewrite AJ in AE. subst a. rewrite isred_J in SA. subst cx_.
    assert (CH : ch (opp s) (fld h1 p) = Some x) by (rewrite (rep_at _ _ _ _ _ _ _ _ R1), ch_mkj_trans, rt_J; reflexivity). rewrite CH.
    cbn [at_ bind]. apply bh_J in BA. destruct BA as [BA1 BA2].
    assert (BCX : bhc (F s q kq false b :: cx) (S m)) by (cbn [bhc fc ft]; split; [exact BB|split; [discriminate|exact BC]]).
    destruct (remove_black s h1 (F s q kq false b :: cx) o p kp true a1 x kx a2 m R1 BO BA1 BA2 IO BCX ltac:(reflexivity)) as (h2 & broke & E2 & RES).
    cbv zeta in E2. cbv zeta. rewrite E2. cbn [bind].
    assert (INQ : forall y, inord (plug (F s q kq false b :: cx) y) = inord (plug cx (J s y q kq false b))) by reflexivity.
    destruct broke.
    + destruct RES as (t' & T1 & T2 & T3). exists h2, (root h2), t'. split; [reflexivity|]. split; [apply ROOT; assumption|]. split; [|exact T2].
      rewrite T3, INQ. cbn [plug]. unfold fill. cbn [fs fn fk fc ft]. rewrite !inord_plug. do 2 f_equal. destruct s; cbn [J inord]; lst.
    + destruct RES as (q' & T1 & T2 & T3). rewrite (rep_at _ _ _ _ _ _ _ _ T1), red_mkj.
      exists h2, (Some p), (plug (F s q kq false b :: cx) (J s o p kp false q')). split; [reflexivity|]. split; [eapply recolor; exact T1|]. split.
      * rewrite INQ. cbn [plug]. unfold fill. cbn [fs fn fk fc ft]. rewrite !inord_plug. do 2 f_equal.
        assert (T4 : inord (J s o p kp false q') = inord (J s o p kp true (J s a1 x kx false a2))) by (rewrite <- T3; destruct s; reflexivity).
        rewrite (inord_J s (J s o p kp false q')), T4. destruct s; cbn [J inord]; lst.
      * apply (replug _ _ (S m)); [apply bh_J; tauto|exact BCX|rewrite isred_J; discriminate].
  - (* black sibling *)
    cbn [bind]. destruct BS as [BA BB].
    destruct (remove_black s h cx o p kp cp a q kq b m R BO BA BB IO BC ltac:(intros X; apply BT, X)) as (h2 & broke & E2 & RES). cbv zeta in E2. cbv zeta. rewrite E2. cbn [bind]. destruct broke.
    + destruct RES as (t' & T1 & T2 & T3). exists h2, (root h2), t'. split; [reflexivity|]. split; [apply ROOT; assumption|]. split; [exact T3|exact T2].
    + destruct RES as (q' & T1 & T2 & T3). apply (NEXT h2 cp q' (J s o p kp cp (J s a q kq false b)) T1 T2 T3 BC).
Qed.

Lemma focus k n t : In (k, n) (inord t) -> exists cx l c r, t = plug cx (T l n k c r).
Proof.
  induction t as [|l IHl m km c r IHr]; cbn [inord]; [intros []|]. rewrite in_app_iff. cbn [In]. intros [I|[I|I]].
  - destruct (IHl I) as (cx & l1 & c1 & r1 & EQ). exists (cx ++ [F SL m km c r]), l1, c1, r1. rewrite plug_app, <- EQ. reflexivity.
  - injection I as <- <-. exists [], l, c, r. reflexivity.
  - destruct (IHr I) as (cx & l1 & c1 & r1 & EQ). exists (cx ++ [F SR m km c l]), l1, c1, r1. rewrite plug_app, <- EQ. reflexivity.
Qed.
Lemma bhc_rename path s n k n' k' c l cx : forall m, bhc (path ++ F s n k c l :: cx) m -> bhc (path ++ F s n' k' c l :: cx) m.
Proof.
  induction path as [|f path IH]; intros m; cbn [app bhc fc ft]; [auto|]. intros (A & B & C). split; [exact A|]. split; [|apply IH, C].
  intros X. destruct (B X) as [B1 B2]. split; [exact B1|]. destruct path; exact B2.
Qed.
Lemma bh0_black t : bh t 0 -> isred t = false -> t = E.
Proof. destruct t as [|l n k c r]; [reflexivity|]. cbn. destruct c; [discriminate|contradiction]. Qed.

Lemma del_tail fuel h3 cx o rd m : rep h3 (plug cx o) -> bh o m -> (if rd : bool then bhc cx m /\ isred o = false else bhc cx (S m)) -> (length cx < fuel)%nat ->
  exists h' t', (if rd then Ok h3 else if redp h3 (rt o) then (do n <- at_ (rt o); Ok (set_red h3 n false))
      else do y <- del_loop fuel h3 (rt o) (ptop cx None); let (h4, nd) := y in Ok (match nd with Some n => set_red h4 n false | None => h4 end)) = Ok h' /\
    rep h' t' /\ rbt t' /\ inord t' = inord (plug cx o).
Proof.
  intros R B C LF. destruct rd.
  - destruct C as [C IO]. exists h3, (plug cx o). split; [reflexivity|]. split; [exact R|]. split; [|reflexivity]. apply (replug _ _ m B C). congruence.
  - rewrite (redp_at _ _ _ R). destruct (isred o) eqn:IO.
    + destruct o as [|ol x kx c or]; [discriminate|]. cbn in IO. subst c. cbn [rt at_ bind]. exists (set_red h3 x false), (plug cx (T ol x kx false or)).
      split; [reflexivity|]. split; [apply (recolor h3 cx SL ol x kx true or false R)|]. split; [|rewrite !inord_plug; reflexivity].
      apply (replug _ _ (S m)); [cbn in B |- *; tauto|exact C|discriminate].
    + destruct (del_loop_ok cx fuel o m h3 LF R IO B C) as (h' & nd' & t' & E1 & R1 & I1 & V1). rewrite E1. cbn [bind]. exists (match nd' with Some n => set_red h' n false | None => h' end), t'. auto.
Qed.

Lemma del_ok fuel h t n k : rep h t -> srt t -> rbt t -> In (k, n) (inord t) -> (height t <= fuel)%nat ->
  exists h' t' a b, tree_del fuel h n = Ok h' /\ rep h' t' /\ srt t' /\ rbt t' /\ inord t = a ++ (k, n) :: b /\ inord t' = a ++ b.
Proof.
  intros R S V IN H. destruct (focus _ _ _ IN) as (cx & l & c & r & EQ). subst t.
  assert (FIN : forall h3 cx' o rd m a b, rep h3 (plug cx' o) -> bh o m -> (if rd : bool then bhc cx' m /\ isred o = false else bhc cx' (Datatypes.S m)) ->
     (length cx' < height (plug cx (T l n k c r)))%nat -> inord (plug cx (T l n k c r)) = a ++ (k, n) :: b -> inord (plug cx' o) = a ++ b ->
     exists h' t' a b, (if rd then Ok h3 else if redp h3 (rt o) then (do n <- at_ (rt o); Ok (set_red h3 n false))
        else do y <- del_loop fuel h3 (rt o) (ptop cx' None); let (h4, nd) := y in Ok (match nd with Some n => set_red h4 n false | None => h4 end)) = Ok h' /\
       rep h' t' /\ srt t' /\ rbt t' /\ inord (plug cx (T l n k c r)) = a ++ (k, n) :: b /\ inord t' = a ++ b).
  { intros h3 cx' o rd m a b R3 B3 C3 L3 I1 I2. destruct (del_tail fuel h3 cx' o rd m R3 B3 C3 ltac:(lia)) as (h' & t' & E1 & R1 & V1 & I3).
    exists h', t', a, b. split; [exact E1|]. split; [exact R1|]. split; [|rewrite I3; auto].
    unfold srt in *. rewrite I3, I2. rewrite I1 in S. rewrite keys_app in S |- *. cbn in S. apply ss_app in S as (S1 & S2 & S3). apply StronglySorted_inv in S2 as [S2 _].
    apply ss_app. split; [exact S1|]. split; [exact S2|]. intros x y I J. apply S3; [exact I|cbn; auto]. }
  pose proof (height_plug cx (T l n k c r)) as HP. cbn [height] in HP.
  destruct (unplug _ _ V) as (m & BT & BC & RB). unfold tree_del. rewrite (rep_at h cx SL l n k c r R). cbn [mkj par lft rgt].
  assert (ONE : forall s o, rep h (plug cx (J s o n k c E)) -> T l n k c r = J s o n k c E ->
     exists h' t' a b, (let h1 := relinked h (ptop cx None) n (rt o) in let h3 := reparented h1 (rt o) (ptop cx None) in
        if red (fld h1 n) then Ok h3 else if redp h3 (rt o) then (do n <- at_ (rt o); Ok (set_red h3 n false))
        else do y <- del_loop fuel h3 (rt o) (ptop cx None); let (h4, nd) := y in Ok (match nd with Some n => set_red h4 n false | None => h4 end)) = Ok h' /\
       rep h' t' /\ srt t' /\ rbt t' /\ inord (plug cx (T l n k c r)) = a ++ (k, n) :: b /\ inord t' = a ++ b).
  { intros s o R1 EQ. rewrite EQ in BT, RB, FIN |- *. cbv zeta. pose proof (splice_one _ _ _ _ _ _ _ R1) as R2.
    assert (RC : red (fld (relinked h (ptop cx None) n (rt o)) n) = c).
    { pose proof (rep_at _ _ _ _ _ _ _ _ R1) as FN. destruct R1 as (RO & K & ND). rewrite rt_plug, rt_J in RO. apply tok_plug in K as [C K]. rewrite rt_J in C.
      apply nd_J in ND. cbn [ids inord map app] in ND. apply NoDup_cons_iff in ND as [N ND]. rewrite in_app_iff in N. apply nodup_app in ND as (_ & N2 & _).
      destruct (relink h cx n (rt o) RO C N2 ltac:(tauto)) as (_ & _ & R3). rewrite R3 by tauto. rewrite FN. apply red_mkj. }
    rewrite RC. apply bh_J in BT. rewrite isred_J in RB.
    assert (II : exists a b, inord (plug cx (J s o n k c E)) = a ++ (k, n) :: b /\ inord (plug cx o) = a ++ b).
    { rewrite !inord_plug. destruct s; cbn [J inord].
      - exists (bef cx ++ inord o), (aft cx). split; lst.
      - exists (bef cx), (inord o ++ aft cx). split; lst. }
    destruct II as (a & b & I1 & I2). rewrite EQ in HP.
    assert (LT : (length cx < height (plug cx (J s o n k c E)))%nat) by lia.
    destruct c.
    - destruct BT as (B1 & _ & B3 & _). apply (FIN _ cx o true m a b R2 B3); [split; [exact BC|exact B1]|exact LT|exact I1|exact I2].
    - destruct m as [|m]; [contradiction|]. destruct BT as [B1 _]. apply (FIN _ cx o false m a b R2 B1); [exact BC|exact LT|exact I1|exact I2]. }
  destruct l as [|ll ln lk lc lr].
  - cbn [rt bind]. apply (ONE SR r R eq_refl).
  - destruct r as [|rl rn rk rc rr].
    + cbn [rt bind]. apply (ONE SL (T ll ln lk lc lr) R eq_refl).
    + cbn [rt]. clear ONE.
      assert (KR : tok h (Some n) (T rl rn rk rc rr)). { destruct R as (_ & K & _). apply tok_plug in K as [_ K]. cbn [tok] in K |- *. tauto. }
      pose proof (height_plug cx (T (T ll ln lk lc lr) n k c (T rl rn rk rc rr))) as HQ.
      destruct (leftmost_ok h (T rl rn rk rc rr) (Some n) fuel KR ltac:(discriminate) ltac:(cbn [height] in *; lia)) as (path & s & ks & cs & r2 & x & X1 & X2 & X3 & X4).
      injection X1 as <-. rewrite X2. cbn [bind].
      assert (R2 : rep h (plug (path ++ F SR n k c (T ll ln lk lc lr) :: cx) (T E s ks cs r2))).
      { rewrite plug_app. cbn [plug]. unfold fill. cbn [fs fn fk fc ft J]. rewrite <- X3. exact R. }
      assert (RT : rtop path (Some s) = Some rn) by (pose proof (f_equal rt X3) as Y; rewrite rt_plug in Y; cbn [rt] in Y; congruence).
      destruct (splice_two h cx (T ll ln lk lc lr) n k c path s ks cs r2 ln rn R2 X4 eq_refl RT) as (h2 & pp & PP & E2 & R3).
      change (match ptop cx None with Some pp => if is (lft (fld h pp)) (Some n) then set_ch SL h pp (Some s) else set_ch SR h pp (Some s) | None => set_root h (Some s) end)
        with (relinked h (ptop cx None) n (Some s)). cbn [at_ bind]. cbv zeta in E2 |- *. cbn [rt] in E2. rewrite E2. cbn [bind].
      assert (PT : pp = ptop (path ++ F SR s ks c (T ll ln lk lc lr) :: cx) None) by (rewrite PP; destruct path; reflexivity). rewrite PT in R3 |- *.
      assert (VV : rbt (plug (path ++ F SR n k c (T ll ln lk lc lr) :: cx) (T E s ks cs r2))).
      { rewrite plug_app. cbn [plug]. unfold fill. cbn [fs fn fk fc ft J]. rewrite <- X3. exact V. }
      destruct (unplug _ _ VV) as (m2 & B2 & C2 & D2). apply (bhc_rename _ _ _ _ s ks) in C2.
      assert (LEN : (length (path ++ F SR s ks c (T ll ln lk lc lr) :: cx) < height (plug cx (T (T ll ln lk lc lr) n k c (T rl rn rk rc rr))))%nat).
      { pose proof (height_plug (path ++ F SR n k c (T ll ln lk lc lr) :: cx) (T E s ks cs r2)) as HH. cbn [height] in HH. rewrite plug_app in HH. cbn [plug] in HH. unfold fill in HH. cbn [fs fn fk fc ft J] in HH.
        rewrite <- X3 in HH. rewrite app_length in HH |- *. cbn [length] in *. lia. }
      assert (BP : bef path = []). { clear - X4. induction X4 as [|f p HF _ IH]; cbn; [reflexivity|]. rewrite HF, IH. reflexivity. }
      assert (I1 : inord (plug cx (T (T ll ln lk lc lr) n k c (T rl rn rk rc rr))) = (bef cx ++ inord (T ll ln lk lc lr)) ++ (k, n) :: ((ks, s) :: inord r2 ++ aft path) ++ aft cx).
      { rewrite X3, inord_plug. cbn [inord]. rewrite inord_plug, BP. cbn [inord app]. lst. }
      assert (I2 : inord (plug (path ++ F SR s ks c (T ll ln lk lc lr) :: cx) r2) = (bef cx ++ inord (T ll ln lk lc lr)) ++ ((ks, s) :: inord r2 ++ aft path) ++ aft cx).
      { rewrite plug_app. cbn [plug]. unfold fill. cbn [fs fn fk fc ft J]. rewrite inord_plug. cbn [inord]. rewrite inord_plug, BP. cbn [inord app]. lst. }
      cbn [bh] in B2. destruct cs.
      * destruct B2 as (_ & B3 & B4 & B5). apply (FIN _ _ r2 true m2 (bef cx ++ inord (T ll ln lk lc lr)) (((ks, s) :: inord r2 ++ aft path) ++ aft cx) R3 B5); [split; [exact C2|exact B3]|exact LEN|exact I1|exact I2].
      * destruct m2 as [|m2]; [contradiction|]. destruct B2 as [_ B5]. apply (FIN _ _ r2 false m2 (bef cx ++ inord (T ll ln lk lc lr)) (((ks, s) :: inord r2 ++ aft path) ++ aft cx) R3 B5); [exact C2|exact LEN|exact I1|exact I2].
Qed.

(* ---- how deep ---- *)
Lemma bh_height t : forall n, bh t n -> (height t <= 2 * n + (if isred t then 1 else 0))%nat.
Proof.
  induction t as [|l IHl m k c r IHr]; intros n; cbn [bh height isred]; [lia|]. destruct c.
  - intros (A & B & C & D). apply IHl in C. apply IHr in D. rewrite A in C. rewrite B in D. lia.
  - destruct n as [|n]; [contradiction|]. intros [C D]. apply IHl in C. apply IHr in D. destruct (isred l), (isred r); lia.
Qed.
Lemma bh_size t : forall n, bh t n -> (2 ^ n <= S (length (inord t)))%nat.
Proof.
  induction t as [|l IHl m k c r IHr]; intros n; cbn [bh inord]; [intros ->; cbn; lia|]. rewrite app_length. cbn [length]. destruct c.
  - intros (_ & _ & C & _). apply IHl in C. lia.
  - destruct n as [|n]; [contradiction|]. intros [C D]. apply IHl in C. apply IHr in D. cbn [Nat.pow]. lia.
Qed.
Lemma rbt_height t : rbt t -> (height t <= 2 * Nat.log2 (S (length (inord t))))%nat.
Proof.
  intros [A [n B]]. pose proof (bh_height _ _ B) as C. rewrite A in C. apply bh_size in B. apply Nat.log2_le_mono in B. rewrite Nat.log2_pow2 in B by lia. lia.
Qed.

(* ---- programs ---- *)
(* the pairs in the map; None: a node is added that is in the tree, or one is taken out that is not *)
Definition used (n : nat) (m : list (Z * nat)) : bool := existsb (fun e => Nat.eqb (snd e) n) m.
Definition look (k : Z) (m : list (Z * nat)) : option nat := match find (fun e => fst e =? k) m with Some e => Some (snd e) | None => None end.
Fixpoint spec (m : list (Z * nat)) (l : list rop) : option (list (Z * nat) * list rres) :=
  match l with
  | [] => Some (m, [])
  | RAdd n k :: r =>
    if used n m then None
    else match look k m with
         | Some _ => match spec m r with Some (m', rs) => Some (m', GAdded false :: rs) | None => None end
         | None => match spec ((k, n) :: m) r with Some (m', rs) => Some (m', GAdded true :: rs) | None => None end
         end
  | RDel n :: r => if used n m then match spec (filter (fun e => negb (Nat.eqb (snd e) n)) m) r with Some (m', rs) => Some (m', GDeleted :: rs) | None => None end else None
  | RFind k :: r => match spec m r with Some (m', rs) => Some (m', GFound (look k m) :: rs) | None => None end
  end.
Fixpoint walk (h : tmem) (p : option nat) (way : list side) : option nat :=
  match way, p with
  | _, None => None
  | [], _ => p
  | s :: r, Some n => walk h (ch s (fld h n)) r
  end.

Definition good (h : tmem) (m : list (Z * nat)) : Prop := exists t, rep h t /\ srt t /\ rbt t /\ Permutation m (inord t).

Lemma used_in n m : used n m = true <-> exists k, In (k, n) m.
Proof.
  unfold used. rewrite existsb_exists. split.
  - intros ([k x] & I & EQ). cbn in EQ. apply Nat.eqb_eq in EQ. subst x. eauto.
  - intros [k I]. exists (k, n). split; [exact I|apply Nat.eqb_refl].
Qed.
Lemma look_in k m n : NoDup (keys m) -> (look k m = Some n <-> In (k, n) m).
Proof.
  unfold look. induction m as [|[x y] m IH]; cbn; [intros _; split; [discriminate|contradiction]|]. intros ND. apply NoDup_cons_iff in ND as [N ND]. destruct (Z.eqb_spec x k) as [->|NE].
  - split; [intros [= <-]; auto|]. intros [[= <-]|I]; [reflexivity|]. apply (in_map fst) in I. contradiction.
  - rewrite IH by exact ND. split; [auto|]. intros [[= X _]|I]; [congruence|exact I].
Qed.
Lemma look_none k m : look k m = None <-> ~ In k (keys m).
Proof.
  unfold look. induction m as [|[x y] m IH]; cbn; [tauto|]. destruct (Z.eqb_spec x k) as [->|NE]; [split; [discriminate|tauto]|].
  rewrite IH. split; [intros H [X|X]; [congruence|tauto]|tauto].
Qed.
Lemma ss_nodup l : StronglySorted Z.lt l -> NoDup l.
Proof.
  induction 1 as [|a l H IH F]; constructor; [|exact IH]. intros I. rewrite Forall_forall in F. specialize (F a I). lia.
Qed.
Lemma filter_out n k (l a b : list (Z * nat)) : NoDup (map snd (a ++ (k, n) :: b)) -> Permutation l (a ++ (k, n) :: b) ->
  Permutation (filter (fun e => negb (Nat.eqb (snd e) n)) l) (a ++ b).
Proof.
  intros ND P. assert (PF : Permutation (filter (fun e => negb (Nat.eqb (snd e) n)) l) (filter (fun e => negb (Nat.eqb (snd e) n)) (a ++ (k, n) :: b))).
  { clear ND. revert P. generalize (a ++ (k, n) :: b). intros l2 P. induction P; cbn; try destruct (negb _); try destruct (negb _); try constructor; auto; try apply perm_swap; try reflexivity. eapply perm_trans; eauto. }
  rewrite PF. rewrite filter_app. cbn [filter snd]. rewrite Nat.eqb_refl. cbn [negb]. rewrite map_app in ND. cbn [map snd] in ND. apply nd_mid in ND as (N1 & N2 & _).
  assert (ID : forall q : list (Z * nat), ~ In n (map snd q) -> filter (fun e => negb (Nat.eqb (snd e) n)) q = q).
  { induction q as [|[x y] q IH]; cbn; [reflexivity|]. intros N. destruct (Nat.eqb_spec y n); [tauto|]. cbn. f_equal. apply IH. tauto. }
  rewrite !ID by assumption. reflexivity.
Qed.


Lemma run_ok : forall l h m fuel m' rs, good h m -> spec m l = Some (m', rs) -> (2 * Nat.log2 (S (length m + length l)) <= fuel)%nat ->
  exists h', rrun fuel h l = Ok (h', rs) /\ good h' m'.
Proof.
  induction l as [|o l IH]; intros h m fuel m' rs G SP LF.
  { injection SP as <- <-. exists h. split; [reflexivity|exact G]. }
  destruct G as (t & R & S & V & P). assert (LT : length (inord t) = length m) by (symmetry; apply Permutation_length, P).
  assert (HT : (height t <= fuel)%nat).
  { pose proof (rbt_height t V) as X. rewrite LT in X. assert (Y : (Nat.log2 (Datatypes.S (length m)) <= Nat.log2 (Datatypes.S (length m + length (o :: l))))%nat) by (apply Nat.log2_le_mono; lia). lia. }
  assert (NK : NoDup (keys m)).
  { eapply Permutation_NoDup; [apply Permutation_map; symmetry; exact P|]. apply ss_nodup. exact S. }
  assert (NN : NoDup (ids t)) by apply R.
  cbn [rrun]. destruct o as [n k|n|k]; cbn [spec rstep] in *.
  - destruct (used n m) eqn:U; [discriminate|].
    assert (NI : ~ In n (ids t)).
    { intros I. unfold ids in I. apply in_map_iff in I as ([x y] & Y & I). cbn in Y. subst y. apply (Permutation_in _ (Permutation_sym P)) in I. assert (X : used n m = true) by (apply used_in; eauto). congruence. }
    assert (KK : forall x, In x (keys m) <-> In x (keys (inord t))) by (intros x; split; apply Permutation_in; apply Permutation_map; [|symmetry]; exact P).
    destruct (add_ok fuel h t n k R S V NI HT) as [(A1 & A2)|(h1 & t1 & a & b & A1 & A2 & A3 & A4 & A5 & A6 & A7)]; rewrite A1; cbn [bind fst snd Z.eqb].
    + destruct (look k m) eqn:LK; [|apply look_none in LK; destruct LK; apply KK, A2].
      destruct (spec m l) as [[m1 rs1]|] eqn:SP1; [|discriminate]. injection SP as <- <-.
      destruct (IH h m fuel m1 rs1) as (h' & E1 & G1); [exists t; auto|exact SP1| |].
      { assert (Y : (Nat.log2 (Datatypes.S (length m + length l)) <= Nat.log2 (Datatypes.S (length m + length (RAdd n k :: l))))%nat) by (apply Nat.log2_le_mono; cbn; lia). lia. }
      rewrite E1. cbn [bind fst snd]. exists h'. auto.
    + destruct (look k m) eqn:LK; [apply look_in in LK; [|exact NK]; apply (in_map fst) in LK; destruct A7; apply KK, LK|].
      destruct (spec ((k, n) :: m) l) as [[m1 rs1]|] eqn:SP1; [|discriminate]. injection SP as <- <-.
      destruct (IH h1 ((k, n) :: m) fuel m1 rs1) as (h' & E1 & G1); [|exact SP1| |].
      { exists t1. split; [exact A2|]. split; [exact A3|]. split; [exact A4|]. rewrite A6, <- Permutation_middle. constructor. rewrite P, A5. reflexivity. }
      { cbn [length] in *. replace (Datatypes.S (length m) + length l)%nat with (length m + Datatypes.S (length l))%nat by lia. exact LF. }
      rewrite E1. cbn [bind fst snd]. exists h'. auto.
  - destruct (used n m) eqn:U; [|discriminate]. apply used_in in U as [k I]. apply (Permutation_in _ P) in I.
    destruct (del_ok fuel h t n k R S V I HT) as (h1 & t1 & a & b & A1 & A2 & A3 & A4 & A5 & A6). rewrite A1. cbn [bind fst snd].
    destruct (spec (filter (fun e => negb (Nat.eqb (snd e) n)) m) l) as [[m1 rs1]|] eqn:SP1; [|discriminate]. injection SP as <- <-.
    unfold ids in NN. rewrite A5 in NN, P. pose proof (filter_out n k m a b NN P) as PF.
    destruct (IH h1 (filter (fun e => negb (Nat.eqb (snd e) n)) m) fuel m1 rs1) as (h' & E1 & G1); [|exact SP1| |].
    { exists t1. rewrite A6. auto. }
    { rewrite (Permutation_length PF). apply Permutation_length in P. rewrite app_length in *. cbn [length] in *.
      assert (Y : (Nat.log2 (Datatypes.S (length a + length b + length l)) <= Nat.log2 (Datatypes.S (length m + Datatypes.S (length l))))%nat) by (apply Nat.log2_le_mono; lia). lia. }
    rewrite E1. cbn [bind fst snd]. exists h'. auto.
  - unfold tree_find. destruct R as (RO & K & ND). rewrite RO. destruct (find_ok fuel h k t None K S HT) as (o & E1 & E2). rewrite E1. cbn [bind fst snd].
    destruct (spec m l) as [[m1 rs1]|] eqn:SP1; [|discriminate]. injection SP as <- <-.
    destruct (IH h m fuel m1 rs1) as (h' & E3 & G1); [exists t; unfold rep; auto|exact SP1| |].
    { assert (Y : (Nat.log2 (Datatypes.S (length m + length l)) <= Nat.log2 (Datatypes.S (length m + length (RFind k :: l))))%nat) by (apply Nat.log2_le_mono; cbn; lia). lia. }
    rewrite E3. cbn [bind fst snd]. exists h'. split; [|exact G1]. do 3 f_equal.
    destruct o as [x|]; destruct (look k m) as [y|] eqn:LK; try reflexivity.
    + apply look_in in LK; [|exact NK]. apply (Permutation_in _ P) in LK. apply E2 in LK. congruence.
    + apply look_none in LK. destruct LK. assert (X : In (k, x) (inord t)) by (apply E2; reflexivity). apply (Permutation_in _ (Permutation_sym P)) in X. apply (in_map fst) in X. exact X.
    + apply look_in in LK; [|exact NK]. apply (Permutation_in _ P) in LK. apply E2 in LK. congruence.
Qed.
Lemma good_init f : good (tree_init f) [].
Proof. exists E. split; [split; [reflexivity|split; [exact I|constructor]]|]. split; [constructor|]. split; [|reflexivity]. split; [reflexivity|]. exists O. reflexivity. Qed.

Lemma tree_map f l m rs fuel : spec [] l = Some (m, rs) -> (2 * Nat.log2 (S (length l)) <= fuel)%nat -> exists h, rrun fuel (tree_init f) l = Ok (h, rs).
Proof. intros SP LF. destruct (run_ok l _ [] fuel m rs (good_init f) SP LF) as (h & E1 & _). eauto. Qed.

Lemma walk_height h way : forall t P, tok h P t -> walk h (rt t) way <> None -> (length way < height t)%nat.
Proof.
  induction way as [|s way IH]; intros t P K W; destruct t as [|l n k c r]; try (destruct W; reflexivity); cbn [height length]; [lia|].
  cbn [rt walk] in W. cbn [tok] in K. destruct K as (K1 & K2 & K3). rewrite K1 in W. destruct s; cbn [ch lft rgt] in W.
  - apply (IH _ _ K2) in W. lia.
  - apply (IH _ _ K3) in W. lia.
Qed.
Lemma tree_balanced f l m rs fuel h : spec [] l = Some (m, rs) -> (2 * Nat.log2 (S (length l)) <= fuel)%nat -> rrun fuel (tree_init f) l = Ok (h, rs) ->
  (forall way, walk h (root h) way <> None -> (length way < 2 * Nat.log2 (S (length m)))%nat) /\
  (forall n, (exists way, walk h (root h) way = Some n) <-> used n m = true) /\
  (root h = None <-> m = []).
Proof.
  intros SP LF RUN. destruct (run_ok l _ [] fuel m rs (good_init f) SP LF) as (h' & E1 & (t & R & S & V & P)). rewrite RUN in E1. injection E1 as <-.
  destruct R as (RO & K & ND). rewrite RO. split; [|split].
  - intros way W. apply (walk_height h way t None K) in W. pose proof (rbt_height t V) as X. rewrite <- (Permutation_length P) in X. lia.
  - intros n. rewrite used_in. assert (IFF : (exists k, In (k, n) m) <-> In n (ids t)).
    { unfold ids. split; [intros [k I]; apply (Permutation_in _ P) in I; apply (in_map snd) in I; exact I|].
      intros I. apply in_map_iff in I as ([k x] & X & I). cbn in X. subst x. exists k. apply (Permutation_in _ (Permutation_sym P) I). }
    rewrite IFF. clear - K. revert K. generalize (@None nat). induction t as [|l IHl x k c r IHr]; intros Q K.
    + cbn. split; [intros [[|? ?] X]; discriminate|contradiction].
    + cbn [tok] in K. destruct K as (K1 & K2 & K3). rewrite ids_T, in_app_iff. cbn [In]. rewrite <- (IHl _ K2), <- (IHr _ K3). split.
      * intros [[|s way] W]; cbn [rt walk] in W; [right; left; congruence|]. rewrite K1 in W. destruct s; cbn [ch lft rgt] in W; eauto.
      * intros [[way W]|[<-|[way W]]]; [exists (SL :: way)|exists []; reflexivity|exists (SR :: way)]; cbn [rt walk]; rewrite K1; exact W.
  - destruct t as [|a n k c b]; cbn [rt inord] in *.
    + split; [intros _; apply Permutation_sym, Permutation_nil in P; exact P|reflexivity].
    + split; [discriminate|]. intros ->. apply Permutation_nil in P. destruct (inord a); discriminate.
Qed.
