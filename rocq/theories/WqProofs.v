From Verif Require Import Base WqModel.
From Coq Require Import Permutation.

(* ---- specification: queues are lists, nodes are in at most one of them ---- *)
Record qst := { queues : list (nat * list nat); apart : list nat }.
Definition nodes (R : list (nat * list nat)) : list nat := flat_map (fun c => fst c :: snd c) R.
Definition unknown (s : qst) (n : nat) : Prop := ~ In n (nodes (queues s)) /\ ~ In n (apart s).
(* the calls allowed, what they do and answer; the order of the queues and of the nodes apart is of no account *)
Inductive call : qst -> op -> qst -> answer -> Prop :=
| c_init s q : unknown s q -> call s (Init q) {| queues := (q, []) :: queues s; apart := apart s |} Nothing
| c_node s n : unknown s n -> call s (Node n) {| queues := queues s; apart := n :: apart s |} Nothing
| c_append s q l Q n F : Permutation (queues s) ((q, l) :: Q) -> Permutation (apart s) (n :: F) ->
    call s (Append q n) {| queues := (q, l ++ [n]) :: Q; apart := F |} Nothing
| c_append_new s q l Q n : Permutation (queues s) ((q, l) :: Q) -> unknown s n ->
    call s (Append q n) {| queues := (q, l ++ [n]) :: Q; apart := apart s |} Nothing
| c_prepend s q l Q n F : Permutation (queues s) ((q, l) :: Q) -> Permutation (apart s) (n :: F) ->
    call s (Prepend q n) {| queues := (q, n :: l) :: Q; apart := F |} Nothing
| c_start s q l1 n l2 Q : Permutation (queues s) ((q, l1 ++ n :: l2) :: Q) ->
    call s (ToStart q n) {| queues := (q, n :: l1 ++ l2) :: Q; apart := apart s |} Nothing
| c_end s q l1 n l2 Q : Permutation (queues s) ((q, l1 ++ n :: l2) :: Q) ->
    call s (ToEnd q n) {| queues := (q, (l1 ++ l2) ++ [n]) :: Q; apart := apart s |} Nothing
| c_remove s q l1 n l2 Q : Permutation (queues s) ((q, l1 ++ n :: l2) :: Q) ->
    call s (Remove n) {| queues := (q, l1 ++ l2) :: Q; apart := n :: apart s |} Nothing
| c_remove_apart s n : In n (apart s) -> call s (Remove n) s Nothing
| c_first s q l : In (q, l) (queues s) -> call s (First q) s (Got (hd_error l))
| c_last s q l : In (q, l) (queues s) -> call s (Last q) s (Got (hd_error (rev l)))
| c_empty s q l : In (q, l) (queues s) -> call s (Empty q) s (Is (match l with [] => true | _ => false end))
| c_in s q l n : In (q, l) (queues s) -> In n l -> call s (Enqueued n) s (Is true)
| c_out s n : In n (apart s) -> call s (Enqueued n) s (Is false).
Inductive calls : qst -> list op -> qst -> list answer -> Prop :=
| cs_nil s : calls s [] s []
| cs_cons s o s' a os s'' aa : call s o s' a -> calls s' os s'' aa -> calls s (o :: os) s'' (a :: aa).

(* ---- the rings ---- *)
Fixpoint chain (m : mem) (a : nat) (l : list nat) (b : nat) : Prop :=
  match l with
  | [] => nx m a = b /\ pv m b = a
  | x :: r => (nx m a = x /\ pv m x = a) /\ chain m x r b
  end.
Definition ok (m : mem) (R : list (nat * list nat)) : Prop := forall q l, In (q, l) R -> chain m q l q.
Definition rings (s : qst) : list (nat * list nat) := queues s ++ map (fun n => (n, [])) (apart s).
Definition rep (m : mem) (s : qst) : Prop := NoDup (nodes (rings s)) /\ ok m (rings s).

Lemma put_same f a b : put f a b a = b. Proof. unfold put. now rewrite Nat.eqb_refl. Qed.
Lemma put_other f a b x : x <> a -> put f a b x = f x. Proof. unfold put. intros. destruct (Nat.eqb_spec x a); easy. Qed.

Lemma chain_app m a l1 x l2 b : chain m a (l1 ++ x :: l2) b <-> chain m a l1 x /\ chain m x l2 b.
Proof. revert a. induction l1 as [|y l1 IH]; intros a; cbn; [tauto|]. rewrite IH. tauto. Qed.
Lemma chain_ext m m' a l b : (forall x, In x (a :: l) -> nx m' x = nx m x) -> (forall x, In x l \/ x = b -> pv m' x = pv m x) -> chain m a l b -> chain m' a l b.
Proof. revert a. induction l as [|y l IH]; intros a N P; cbn; [rewrite N, P by (cbn; auto); auto|].
  intros ((A & B) & C). split; [rewrite N, P by (cbn; auto); auto|]. apply IH; auto; [intros x X; apply N; now right|]. intros x [X|X]; apply P; cbn; auto. Qed.
Lemma last_cons (y : nat) r a : last (y :: r) a = last r y.
Proof. revert y a. induction r as [|z r IH]; intros y a; [easy|]. change (last (y :: z :: r) a) with (last (z :: r) a). now rewrite !IH. Qed.
Lemma last_in (r : list nat) a : In (last r a) (a :: r).
Proof. revert a. induction r as [|z r IH]; intros a; [now left|]. rewrite last_cons. right. apply IH. Qed.
Lemma last_app_cons (l : list nat) x a : last (l ++ [x]) a = x.
Proof. revert a. induction l as [|y l IH]; intros a; [easy|]. cbn [app]. rewrite last_cons. apply IH. Qed.
Lemma chain_pv m a l b : chain m a l b -> pv m b = last l a.
Proof. revert a. induction l as [|y l IH]; intros a; cbn [chain]; [easy|]. intros (_ & C). rewrite last_cons. now apply IH. Qed.
Lemma chain_nx m a l b : chain m a l b -> nx m a = hd b l.
Proof. destruct l; cbn; intuition. Qed.
(* another end *)
Lemma chain_end m m' a l b b' : chain m a l b -> NoDup (a :: l) -> (forall x, In x (a :: l) -> x <> last l a -> nx m' x = nx m x) -> nx m' (last l a) = b' ->
  (forall x, In x l -> pv m' x = pv m x) -> pv m' b' = last l a -> chain m' a l b'.
Proof. revert a. induction l as [|y l IH]; intros a C N F E G H; [cbn in *; auto|]. destruct C as ((A & B) & C). rewrite last_cons in *.
  assert (a <> last l y). { intros X. assert (L := last_in l y). rewrite <- X in L. inversion N; easy. }
  cbn. split; [rewrite F, G; cbn; auto|]. apply IH; auto; [now inversion N|intros x X; apply F; now right|intros x X; apply G; now right]. Qed.
(* another beginning *)
Lemma chain_begin m m' a l b a' : chain m a l b -> NoDup (l ++ [b]) -> nx m' a' = hd b l -> pv m' (hd b l) = a' -> (forall x, In x l -> nx m' x = nx m x) ->
  (forall x, In x (l ++ [b]) -> x <> hd b l -> pv m' x = pv m x) -> chain m' a' l b.
Proof. destruct l as [|y l]; cbn; [auto|]. intros ((A & B) & C) N E F G H. split; [auto|]. inversion N as [|? ? NI N']; subst. apply chain_ext with m; auto.
  intros x X. assert (I : In x (l ++ [b])) by (apply in_or_app; cbn; intuition). apply H; [now right|]. intros ->. easy. Qed.

Lemma in_nodes R q l x : In (q, l) R -> In x (q :: l) -> In x (nodes R).
Proof. intros I X. apply in_flat_map. exists (q, l). auto. Qed.
Lemma nodup_app_out {A} (l r : list A) x : NoDup (l ++ r) -> In x l -> ~ In x r.
Proof. intros N I J. induction l as [|y l IH]; [easy|]. cbn in *. inversion N as [|? ? NI N']; subst. destruct I as [->|I]; [apply NI, in_or_app; now right|auto]. Qed.
Lemma nodup_app_l {A} (l r : list A) : NoDup (l ++ r) -> NoDup l.
Proof. induction l as [|y l IH]; intros N; [constructor|]. cbn in N. inversion N as [|? ? NI N']; subst. constructor; [|auto]. intros I. apply NI, in_or_app. now left. Qed.
Lemma nodup_app_r {A} (l r : list A) : NoDup (l ++ r) -> NoDup r.
Proof. induction l as [|y l IH]; intros N; [easy|]. cbn in N. inversion N; auto. Qed.

(* memory that agrees outside one ring *)
Lemma ok_frame m m' q l R : NoDup (q :: l ++ nodes R) -> ok m R -> (forall x, ~ In x (q :: l) -> nx m' x = nx m x /\ pv m' x = pv m x) -> ok m' R.
Proof. intros N O F p k I. apply chain_ext with m; [| |now apply O]; intros x X; apply F; intros Y.
  - apply (nodup_app_out (q :: l) (nodes R) x N Y). eapply in_nodes; eauto.
  - apply (nodup_app_out (q :: l) (nodes R) x N Y). eapply in_nodes; [eauto|]. cbn. intuition. Qed.

Lemma init_ok m n R : NoDup (n :: nodes R) -> ok m R -> ok (node_init m n) ((n, []) :: R).
Proof. intros N O q l [E|I].
  - injection E as <- <-. cbn. now rewrite !put_same.
  - revert q l I. change (ok (node_init m n) R). apply (ok_frame m _ n [] R); auto. intros x X. cbn in *. rewrite !put_other by intuition. auto. Qed.

Lemma append_ok m q l n R : NoDup (n :: q :: l ++ nodes R) -> ok m ((q, l) :: R) -> ok (append m q n) ((q, l ++ [n]) :: R).
Proof. intros N O. assert (C := O q l (or_introl eq_refl)). assert (P := chain_pv _ _ _ _ C).
  inversion N as [|? ? NI N']; subst.
  assert (QN : q <> n) by (intros E; apply NI; now left).
  assert (LN : last l q <> n). { intros E. apply NI. rewrite <- E. destruct (last_in l q) as [X|X]; [now left|right; apply in_or_app; now left]. }
  assert (ND : NoDup (q :: l)) by (apply nodup_app_l with (nodes R); exact N').
  assert (LNot : ~ In n l) by (intros I; apply NI; right; apply in_or_app; now left).
  assert (EQ : forall x, pv (append m q n) x = if Nat.eqb x q then n else if Nat.eqb x n then last l q else pv m x).
  { intros x. unfold append. cbn. unfold put. destruct (Nat.eqb_spec x q); [easy|]. destruct (Nat.eqb_spec x n); [|easy]. now rewrite P. }
  assert (EN : forall x, nx (append m q n) x = if Nat.eqb x (last l q) then n else if Nat.eqb x n then q else nx m x).
  { intros x. unfold append. cbn. rewrite put_same. rewrite P. unfold put. destruct (Nat.eqb_spec x (last l q)); easy. }
  intros p k [E|I].
  - injection E as <- <-. apply chain_app. split.
    + apply chain_end with m q; auto.
      * intros x X XL. rewrite EN. destruct (Nat.eqb_spec x (last l q)); [easy|]. destruct (Nat.eqb_spec x n); [|easy]. subst x. destruct X; [easy|easy].
      * rewrite EN, Nat.eqb_refl. easy.
      * intros x X. rewrite EQ. destruct (Nat.eqb_spec x q); [subst; inversion ND; easy|]. destruct (Nat.eqb_spec x n); [subst; easy|easy].
      * rewrite EQ. destruct (Nat.eqb_spec n q); [congruence|]. now rewrite Nat.eqb_refl.
    + cbn [chain]. rewrite EN, EQ, Nat.eqb_refl. destruct (Nat.eqb_spec n (last l q)); [congruence|]. now rewrite Nat.eqb_refl.
  - revert p k I. change (ok (append m q n) R). apply (ok_frame m _ n (q :: l) R); auto.
    + intros p k I. apply O. now right.
    + intros x X. rewrite EN, EQ. cbn in X.
      destruct (Nat.eqb_spec x (last l q)); [exfalso; subst; apply X; destruct (last_in l q); intuition|]. destruct (Nat.eqb_spec x n); [intuition|]. destruct (Nat.eqb_spec x q); intuition. Qed.

Lemma hd_in (l : list nat) b : In (hd b l) (l ++ [b]).
Proof. destruct l; cbn; auto. Qed.
Lemma nodup_turn (q : nat) l : NoDup (q :: l) -> NoDup (l ++ [q]).
Proof. intros N. apply Permutation_NoDup with (q :: l); [|easy]. apply Permutation_cons_append. Qed.

Lemma prepend_ok m q l n R : NoDup (n :: q :: l ++ nodes R) -> ok m ((q, l) :: R) -> ok (prepend m q n) ((q, n :: l) :: R).
Proof. intros N O. assert (C := O q l (or_introl eq_refl)). assert (P := chain_nx _ _ _ _ C).
  inversion N as [|? ? NI N']; subst.
  assert (QN : q <> n) by (intros E; apply NI; now left).
  assert (ND : NoDup (q :: l)) by (apply nodup_app_l with (nodes R); exact N').
  assert (LNot : ~ In n l) by (intros I; apply NI; right; apply in_or_app; now left).
  assert (HI : In (hd q l) (q :: l)) by (destruct l; cbn; auto).
  assert (HN : hd q l <> n). { intros E. rewrite E in HI. destruct HI; easy. }
  assert (EN : forall x, nx (prepend m q n) x = if Nat.eqb x q then n else if Nat.eqb x n then hd q l else nx m x).
  { intros x. unfold prepend. cbn. unfold put. destruct (Nat.eqb_spec x q); [easy|]. destruct (Nat.eqb_spec x n); [|easy]. easy. }
  assert (EQ : forall x, pv (prepend m q n) x = if Nat.eqb x (hd q l) then n else if Nat.eqb x n then q else pv m x).
  { intros x. unfold prepend. cbn. rewrite put_same, P. unfold put. destruct (Nat.eqb_spec x (hd q l)); easy. }
  intros p k [E|I].
  - injection E as <- <-. cbn [chain]. split; [rewrite EN, EQ, !Nat.eqb_refl; destruct (Nat.eqb_spec n (hd q l)); [congruence|easy]|].
    apply chain_begin with m q; auto.
    + now apply nodup_turn.
    + rewrite EN. destruct (Nat.eqb_spec n q); [congruence|]. now rewrite Nat.eqb_refl.
    + now rewrite EQ, Nat.eqb_refl.
    + intros x X. rewrite EN. destruct (Nat.eqb_spec x q); [subst; inversion ND; easy|]. destruct (Nat.eqb_spec x n); [subst; easy|easy].
    + intros x X XH. rewrite EQ. destruct (Nat.eqb_spec x (hd q l)); [easy|]. destruct (Nat.eqb_spec x n); [|easy]. subst x. apply in_app_or in X. destruct X as [X|[X|[]]]; easy.
  - revert p k I. change (ok (prepend m q n) R). apply (ok_frame m _ n (q :: l) R); auto.
    + intros p k I. apply O. now right.
    + intros x X. rewrite EN, EQ. cbn in X, HI.
      destruct (Nat.eqb_spec x (hd q l)); [exfalso; subst; intuition|]. destruct (Nat.eqb_spec x n); [intuition|]. destruct (Nat.eqb_spec x q); intuition. Qed.

Lemma detach_ok m q l1 n l2 R : NoDup (q :: (l1 ++ n :: l2) ++ nodes R) -> ok m ((q, l1 ++ n :: l2) :: R) -> ok (detach m n) ((q, l1 ++ l2) :: R).
Proof. intros N O. assert (C := O _ _ (or_introl eq_refl)). apply chain_app in C. destruct C as (C1 & C2).
  assert (P := chain_pv _ _ _ _ C1). assert (Q := chain_nx _ _ _ _ C2).
  assert (ND : NoDup (q :: l1 ++ n :: l2)) by (apply nodup_app_l with (nodes R); exact N).
  assert (Nn : ~ In n (q :: l1)). { change (q :: l1 ++ n :: l2) with ((q :: l1) ++ n :: l2) in ND. intros I. apply (nodup_app_out _ _ n ND I). now left. }
  assert (Nl1 : NoDup (q :: l1)) by (apply nodup_app_l with (n :: l2); exact ND).
  assert (Nnl2 : NoDup (n :: l2)) by (apply nodup_app_r with (q :: l1); exact ND).
  assert (X12 : forall x, In x (q :: l1) -> ~ In x l2) by (intros x I J; apply (nodup_app_out (q :: l1) (n :: l2) x ND I); now right).
  assert (PN : last l1 q <> n) by (intros E; apply Nn; rewrite <- E; apply last_in).
  assert (SN : hd q l2 <> n). { intros E. destruct l2 as [|y r]; cbn in E; [subst; apply Nn; now left|subst; inversion Nnl2 as [|? ? NI]; apply NI; now left]. }
  assert (EN : forall x, nx (detach m n) x = if Nat.eqb x (last l1 q) then hd q l2 else nx m x).
  { intros x. unfold detach. cbn. rewrite P, Q. unfold put. easy. }
  assert (EQ : forall x, pv (detach m n) x = if Nat.eqb x (hd q l2) then last l1 q else pv m x).
  { intros x. unfold detach. cbn. rewrite P, Q. unfold put. destruct (Nat.eqb_spec n (last l1 q)); [congruence|]. rewrite Q. easy. }
  assert (PvL1 : forall x, In x l1 -> pv (detach m n) x = pv m x).
  { intros x X. rewrite EQ. destruct (Nat.eqb_spec x (hd q l2)) as [E|E]; [|easy]. exfalso. subst x. destruct l2 as [|y r]; cbn in X; [inversion Nl1; easy|]. apply (X12 y); [now right|now left]. }
  intros p k [E|I].
  - injection E as <- <-. destruct l2 as [|s r].
    + rewrite app_nil_r. apply chain_end with m n; auto.
      * intros x X XL. rewrite EN. destruct (Nat.eqb_spec x (last l1 q)); easy.
      * rewrite EN, Nat.eqb_refl. easy.
      * rewrite EQ. cbn. now rewrite Nat.eqb_refl.
    + apply chain_app. cbn [hd] in *. split.
      * apply chain_end with m n; auto.
        -- intros x X XL. rewrite EN. destruct (Nat.eqb_spec x (last l1 q)); easy.
        -- now rewrite EN, Nat.eqb_refl.
        -- now rewrite EQ, Nat.eqb_refl.
      * cbn in C2. destruct C2 as (_ & C2). apply chain_ext with m; auto.
        -- intros x X. rewrite EN. destruct (Nat.eqb_spec x (last l1 q)) as [E|E]; [|easy]. exfalso. subst x. apply (X12 (last l1 q) (last_in l1 q)). exact X.
        -- intros x X. rewrite EQ. destruct (Nat.eqb_spec x s) as [E|E]; [|easy]. exfalso. subst x. destruct X as [X|X].
           ++ inversion Nnl2 as [|? ? _ N2]; subst. inversion N2; easy.
           ++ subst s. apply (X12 q); now left.
  - revert p k I. change (ok (detach m n) R). apply (ok_frame m _ q (l1 ++ n :: l2) R); auto.
    + intros p k I. apply O. now right.
    + intros x X. rewrite EN, EQ.
      assert (XP : x <> last l1 q). { intros E. apply X. subst x. destruct (last_in l1 q) as [Y|Y]; [now left|right; apply in_or_app; now left]. }
      assert (XS : x <> hd q l2). { intros E. apply X. subst x. destruct l2 as [|y r]; cbn; [now left|]. right. apply in_or_app. right. right. now left. }
      destruct (Nat.eqb_spec x (last l1 q)); [easy|]. destruct (Nat.eqb_spec x (hd q l2)); easy. Qed.

(* ---- states up to order ---- *)
Lemma nodes_perm R R' : Permutation R R' -> Permutation (nodes R) (nodes R').
Proof. unfold nodes. induction 1; cbn; auto.
  - constructor. now apply Permutation_app_head.
  - change (Permutation ((fst y :: snd y) ++ (fst x :: snd x) ++ flat_map (fun c => fst c :: snd c) l) ((fst x :: snd x) ++ (fst y :: snd y) ++ flat_map (fun c => fst c :: snd c) l)).
    rewrite !app_assoc. apply Permutation_app_tail, Permutation_app_comm.
  - etransitivity; eauto. Qed.
Lemma good_perm m R R' : Permutation R R' -> NoDup (nodes R) /\ ok m R -> NoDup (nodes R') /\ ok m R'.
Proof. intros P (N & O). split; [eapply Permutation_NoDup; [apply nodes_perm; eauto|easy]|]. intros q l I. apply O. apply Permutation_in with R'; [now apply Permutation_sym|easy]. Qed.
Lemma nodes_app R R' : nodes (R ++ R') = nodes R ++ nodes R'.
Proof. apply flat_map_app. Qed.
Lemma nodes_apart F : nodes (map (fun n => (n, [])) F) = F.
Proof. induction F; cbn; [easy|]. now f_equal. Qed.
Lemma unknown_fresh s n : unknown s n -> NoDup (nodes (rings s)) -> NoDup (n :: nodes (rings s)).
Proof. intros (A & B) N. constructor; [|easy]. unfold rings. rewrite nodes_app, nodes_apart. intros I. apply in_app_or in I. intuition. Qed.

Lemma nodup_swap (n q : nat) l r : NoDup (n :: q :: l ++ r) <-> NoDup (q :: (l ++ [n]) ++ r).
Proof. split; apply Permutation_NoDup; [|apply Permutation_sym].
  all: rewrite <- app_assoc; cbn; etransitivity; [apply perm_swap|constructor; apply Permutation_middle]. Qed.
Lemma nodup_swap' (n q : nat) l r : NoDup (n :: q :: l ++ r) <-> NoDup (q :: (n :: l) ++ r).
Proof. split; apply Permutation_NoDup; apply perm_swap. Qed.
Lemma nodup_mid (n q : nat) l1 l2 r : NoDup (q :: (l1 ++ n :: l2) ++ r) -> NoDup (n :: q :: (l1 ++ l2) ++ r).
Proof. apply Permutation_NoDup. etransitivity; [|apply perm_swap]. constructor. change (n :: (l1 ++ l2) ++ r) with ((n :: l1 ++ l2) ++ r). apply Permutation_app_tail, Permutation_sym, Permutation_middle. Qed.

Lemma empty_ring m q l : NoDup (q :: l) -> chain m q l q -> Nat.eqb (pv m q) q = match l with [] => true | _ => false end.
Proof. intros N C. rewrite (chain_pv _ _ _ _ C). destruct l as [|y r]; [cbn; now rewrite Nat.eqb_refl|]. rewrite last_cons. apply Nat.eqb_neq. intros E. assert (L := last_in r y). rewrite E in L. inversion N; easy. Qed.
Lemma ring_nodup R q l : NoDup (nodes R) -> In (q, l) R -> NoDup (q :: l).
Proof. intros N I. apply in_split in I. destruct I as (A & B & ->). rewrite nodes_app in N. apply nodup_app_r in N. cbn in N. apply nodup_app_l with (nodes B). exact N. Qed.
Lemma hd_last (l : list nat) q : l <> [] -> hd_error (rev l) = Some (last l q).
Proof. intros H. destruct (exists_last H) as (r & x & ->). rewrite rev_app_distr. cbn. now rewrite last_app_cons. Qed.

Theorem call_ok m s o s' a : rep m s -> call s o s' a -> snd (exec m o) = a /\ rep (fst (exec m o)) s'.
Proof.
  intros (N & O) C. destruct C; cbn [exec fst snd].
  - (* init *) split; [easy|]. split; [exact (unknown_fresh s q H N)|]. unfold rings. cbn [queues apart app]. apply init_ok; [now apply unknown_fresh|easy].
  - (* node *) split; [easy|]. apply good_perm with ((n, []) :: rings s).
    + unfold rings. cbn. apply Permutation_middle.
    + split; [exact (unknown_fresh s n H N)|]. apply init_ok; [now apply unknown_fresh|easy].
  - (* append *) split; [easy|]. assert (PR : Permutation (rings s) ((q, l) :: (n, []) :: Q ++ map (fun n => (n, [])) F)).
    { unfold rings. etransitivity; [apply Permutation_app; [eauto|apply Permutation_map; eauto]|]. cbn. constructor. apply Permutation_sym, Permutation_middle. }
    destruct (good_perm m _ _ PR (conj N O)) as (N1 & O1).
    unfold rep, rings. cbn [queues apart app]. set (R := Q ++ map (fun n => (n, [])) F) in *. cbn in N1.
    assert (N2 : NoDup (n :: q :: l ++ nodes R)). { eapply Permutation_NoDup; [|exact N1]. etransitivity; [|apply perm_swap]. constructor. apply Permutation_sym, Permutation_middle. }
    split; [cbn; now apply nodup_swap|]. apply append_ok; [easy|]. intros p k I. apply O1. destruct I as [I|I]; [now left|right; now right].
  - (* append new *) split; [easy|]. assert (PR : Permutation (rings s) ((q, l) :: Q ++ map (fun n => (n, [])) (apart s))).
    { unfold rings. etransitivity; [apply Permutation_app; [eauto|reflexivity]|]. reflexivity. }
    assert (N0 := unknown_fresh s n H0 N). destruct (good_perm m _ _ PR (conj N O)) as (N1 & O1). unfold rep, rings. cbn [queues apart app]. set (R := Q ++ map (fun n => (n, [])) (apart s)) in *.
    assert (N2 : NoDup (n :: q :: l ++ nodes R)). { eapply Permutation_NoDup; [|exact N0]. constructor. apply (nodes_perm _ _ PR). }
    split; [cbn; now apply nodup_swap|]. now apply append_ok.
  - (* prepend *) split; [easy|]. assert (PR : Permutation (rings s) ((q, l) :: (n, []) :: Q ++ map (fun n => (n, [])) F)).
    { unfold rings. etransitivity; [apply Permutation_app; [eauto|apply Permutation_map; eauto]|]. cbn. constructor. apply Permutation_sym, Permutation_middle. }
    destruct (good_perm m _ _ PR (conj N O)) as (N1 & O1).
    unfold rep, rings. cbn [queues apart app]. set (R := Q ++ map (fun n => (n, [])) F) in *. cbn in N1.
    assert (N2 : NoDup (n :: q :: l ++ nodes R)). { eapply Permutation_NoDup; [|exact N1]. etransitivity; [|apply perm_swap]. constructor. apply Permutation_sym, Permutation_middle. }
    split; [cbn [nodes flat_map fst snd]; apply (nodup_swap' n q l (nodes R)); exact N2|]. apply prepend_ok; [easy|]. intros p k I. apply O1. destruct I as [I|I]; [now left|right; now right].
  - (* to start *) split; [easy|]. assert (PR : Permutation (rings s) ((q, l1 ++ n :: l2) :: Q ++ map (fun n => (n, [])) (apart s))).
    { unfold rings. etransitivity; [apply Permutation_app; [eauto|reflexivity]|]. reflexivity. }
    destruct (good_perm m _ _ PR (conj N O)) as (N1 & O1). unfold rep, rings. cbn [queues apart app]. set (R := Q ++ map (fun n => (n, [])) (apart s)) in *.
    change (NoDup (q :: (l1 ++ n :: l2) ++ nodes R)) in N1. assert (N2 := nodup_mid _ _ _ _ _ N1).
    split; [change (NoDup (q :: (n :: l1 ++ l2) ++ nodes R)); now apply nodup_swap'|]. unfold move_to_start. apply prepend_ok; [easy|]. now apply detach_ok.
  - (* to end *) split; [easy|]. assert (PR : Permutation (rings s) ((q, l1 ++ n :: l2) :: Q ++ map (fun n => (n, [])) (apart s))).
    { unfold rings. etransitivity; [apply Permutation_app; [eauto|reflexivity]|]. reflexivity. }
    destruct (good_perm m _ _ PR (conj N O)) as (N1 & O1). unfold rep, rings. cbn [queues apart app]. set (R := Q ++ map (fun n => (n, [])) (apart s)) in *.
    change (NoDup (q :: (l1 ++ n :: l2) ++ nodes R)) in N1. assert (N2 := nodup_mid _ _ _ _ _ N1).
    split; [change (NoDup (q :: ((l1 ++ l2) ++ [n]) ++ nodes R)); now apply nodup_swap|]. unfold move_to_end. apply append_ok; [easy|]. now apply detach_ok.
  - (* remove *) split; [easy|]. assert (PR : Permutation (rings s) ((q, l1 ++ n :: l2) :: Q ++ map (fun n => (n, [])) (apart s))).
    { unfold rings. etransitivity; [apply Permutation_app; [eauto|reflexivity]|]. reflexivity. }
    destruct (good_perm m _ _ PR (conj N O)) as (N1 & O1).
    apply good_perm with ((n, []) :: (q, l1 ++ l2) :: Q ++ map (fun n => (n, [])) (apart s)).
    + unfold rings. cbn. etransitivity; [apply perm_swap|]. constructor. apply Permutation_middle.
    + set (R := Q ++ map (fun n => (n, [])) (apart s)) in *. change (NoDup (q :: (l1 ++ n :: l2) ++ nodes R)) in N1. assert (N2 := nodup_mid _ _ _ _ _ N1).
      split; [exact N2|]. unfold remove. apply init_ok; [exact N2|]. now apply detach_ok.
  - (* remove apart *) split; [easy|]. destruct (in_split _ _ H) as (A & B & E). assert (PR : Permutation (rings s) ((n, []) :: queues s ++ map (fun n => (n, [])) (A ++ B))).
    { unfold rings. rewrite E. etransitivity; [apply Permutation_app_head; rewrite map_app; cbn; apply Permutation_sym, Permutation_middle|]. rewrite map_app. apply Permutation_sym, Permutation_middle. }
    destruct (good_perm m _ _ PR (conj N O)) as (N1 & O1). apply good_perm with ((n, []) :: queues s ++ map (fun n => (n, [])) (A ++ B)); [now apply Permutation_sym|].
    split; [easy|]. set (R := queues s ++ map (fun n => (n, [])) (A ++ B)) in *. cbn in N1. unfold remove. apply init_ok; [easy|].
    apply (ok_frame m _ n [] R); [easy|intros p k I; apply O1; now right|]. intros x X. assert (CC := O1 n [] (or_introl eq_refl)). cbn in CC. destruct CC as (C1 & C2).
    unfold detach. cbn. rewrite C1, C2. assert (x <> n) by (intros Y; apply X; now left). rewrite put_same, !put_other by easy. auto.
  - (* first *) assert (I : In (q, l) (rings s)) by (apply in_or_app; now left). assert (CC := O _ _ I). assert (NN := ring_nodup _ _ _ N I). split; [|now split].
    unfold first, is_empty, is_enqueued. rewrite (empty_ring _ _ _ NN CC). destruct l as [|y r]; [easy|]. cbn. now rewrite (chain_nx _ _ _ _ CC).
  - (* last *) assert (I : In (q, l) (rings s)) by (apply in_or_app; now left). assert (CC := O _ _ I). assert (NN := ring_nodup _ _ _ N I). split; [|now split].
    unfold last_, is_empty, is_enqueued. rewrite (empty_ring _ _ _ NN CC). destruct l as [|y r]; [easy|]. cbn [negb]. rewrite (chain_pv _ _ _ _ CC). now rewrite <- hd_last.
  - (* empty *) assert (I : In (q, l) (rings s)) by (apply in_or_app; now left). assert (CC := O _ _ I). assert (NN := ring_nodup _ _ _ N I). split; [|now split].
    unfold is_empty, is_enqueued. rewrite (empty_ring _ _ _ NN CC). now destruct l.
  - (* in *) assert (I : In (q, l) (rings s)) by (apply in_or_app; now left). assert (CC := O _ _ I). assert (NN := ring_nodup _ _ _ N I). split; [|now split].
    apply in_split in H0. destruct H0 as (l1 & l2 & ->). apply chain_app in CC. destruct CC as (C1 & _). unfold is_enqueued. rewrite (chain_pv _ _ _ _ C1).
    destruct (Nat.eqb_spec (last l1 q) n) as [E|E]; [|easy]. exfalso. change (q :: l1 ++ n :: l2) with ((q :: l1) ++ n :: l2) in NN. apply (nodup_app_out _ _ n NN); [rewrite <- E; apply last_in|now left].
  - (* out *) assert (I : In (n, []) (rings s)) by (apply in_or_app; right; apply in_map_iff; eauto). assert (CC := O _ _ I). split; [|now split].
    unfold is_enqueued. cbn in CC. destruct CC as (_ & ->). now rewrite Nat.eqb_refl.
Qed.
Theorem calls_ok m s os s' aa : rep m s -> calls s os s' aa -> snd (runs m os) = aa /\ rep (fst (runs m os)) s'.
Proof. intros V C. revert m V. induction C; intros m V; cbn; [easy|]. destruct (call_ok _ _ _ _ _ V H) as (A & B). destruct (IHC _ B) as (D & E). now rewrite A, D. Qed.
Lemma start_ok m : rep m {| queues := []; apart := [] |}.
Proof. split; [constructor|intros q l []]. Qed.
Theorem queue_refines m os s aa : calls {| queues := []; apart := [] |} os s aa -> snd (runs m os) = aa.
Proof. intros C. apply (calls_ok m _ _ _ _ (start_ok m) C). Qed.
