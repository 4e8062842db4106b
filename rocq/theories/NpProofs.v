(* Names of pipes. *)
From Coq Require Import ZArith List Bool Arith Lia.
From Verif Require Import Base NpModel.
Import ListNotations.
Local Open Scope nat_scope.

Lemma teq_eq a : forall b, teq a b = true <-> a = b.
Proof.
  induction a as [|x a IH]; intros [|y b]; simpl; try (split; [discriminate|congruence]); try tauto.
  rewrite andb_true_iff, Z.eqb_eq, IH. split; [intros [-> ->]; auto|intros E; injection E; auto].
Qed.

Section S.
Variable pre : text.
Variable n port m : nat.
Hypothesis room : 2 * length pre < n.
Hypothesis portpos : 0 < port.

(* a name that fits, and is not a full one *)
Definition fits (x : text) : Prop := length pre + length x < n.
Definition plain (x : text) : Prop := fits x /\ forall r, x <> pre ++ r.

Lemma named_fits x : fits x -> named pre n x = pre ++ x.
Proof. intros F. unfold named. apply firstn_all2. unfold fits in F. rewrite app_length. lia. Qed.
Lemma named_app x : named pre n x = pre ++ firstn (n - 1 - length pre) x.
Proof. unfold named. rewrite firstn_app, firstn_all2 by lia. reflexivity. Qed.

Definition used (s : slot) : bool := match s with Unused => false | _ => true end.
Definition count (t : table) : nat := length (filter used t).

Lemma unused_spec t : forall i, match unused_from i t with
  | Some k => 0 < k /\ i <= k /\ nth_error t (k - i) = Some Unused
  | None => forall k, nth_error t k = Some Unused -> i + k = 0
  end.
Proof.
  induction t as [|s t IH]; intros i; simpl; [intros [|k]; discriminate|].
  assert (N : match unused_from (S i) t with
    | Some k => 0 < k /\ i <= k /\ nth_error (s :: t) (k - i) = Some Unused
    | None => forall k, nth_error t k <> Some Unused end).
  { specialize (IH (S i)). destruct (unused_from (S i) t) as [k|].
    - destruct IH as (A & B & C). split; auto. split; [lia|]. replace (k - i) with (S (k - S i)) by lia. exact C.
    - intros k H. apply IH in H. lia. }
  destruct s.
  - destruct (Nat.eqb_spec i 0) as [->|Z0].
    + destruct (unused_from 1 t); auto. intros [|k]; auto. simpl. intros H. destruct (N k H).
    + replace (i - i) with 0 by lia. split; [lia|]. split; [lia|]. reflexivity.
  - destruct (unused_from (S i) t); auto. intros [|k]; simpl; [discriminate|]. intros H. destruct (N k H).
  - destruct (unused_from (S i) t); auto. intros [|k]; simpl; [discriminate|]. intros H. destruct (N k H).
Qed.
Lemma choose_spec t : match choose port t with
  | Some k => 0 < k /\ nth_error t k = Some Unused
  | None => forall k, nth_error t k = Some Unused -> k = 0
  end.
Proof.
  unfold choose. pose proof (unused_spec t 0) as U.
  assert (V : match unused_from 0 t with Some k => 0 < k /\ nth_error t k = Some Unused | None => forall k, nth_error t k = Some Unused -> k = 0 end).
  { destruct (unused_from 0 t) as [k|]; [|exact U]. destruct U as (A & _ & B). rewrite Nat.sub_0_r in B. auto. }
  destruct (nth_error t port) as [[| |]|] eqn:E; auto.
Qed.

Lemma count_set t : forall i p, nth_error t i = Some Unused -> count (set_nth i (Pipe p) t) = S (count t).
Proof.
  unfold count. induction t as [|s t IH]; intros [|i] p E; simpl in *; try discriminate.
  - injection E as ->. reflexivity.
  - destruct (used s); simpl; rewrite IH; auto.
Qed.
Lemma count_all t : (forall k, nth_error t k <> Some Unused) -> count t = length t.
Proof.
  unfold count. induction t as [|s t IH]; intros H; simpl; auto.
  assert (used s = true) as -> by (specialize (H 0); destruct s; auto; simpl in H; congruence).
  simpl. rewrite IH; auto. intros k. apply (H (S k)).
Qed.
Lemma count_le t : nth_error t 0 = Some Unused -> count t <= length t - 1.
Proof.
  destruct t as [|s t]; simpl; [discriminate|]. intros E. injection E as ->. unfold count. simpl.
  rewrite Nat.sub_0_r. clear. induction t as [|s t IH]; simpl; auto. destruct (used s); simpl; lia.
Qed.

(* the table holds the pipes of the names l *)
Record holds (t : table) (l : list text) : Prop := {
  hlen : length t = m;
  hzero : nth_error t 0 = Some Unused;
  hcnt : count t = length l;
  hslot : forall k s, nth_error t k = Some s -> s = Unused \/ exists x, s = Pipe (pre ++ x) /\ In x l;
  hin : forall x, In x l -> exists k, nth_error t k = Some (Pipe (pre ++ x)) }.

Lemma set_at {A} (l : list A) k x y j : nth_error l k = Some y -> nth_error (set_nth k x l) j = if Nat.eqb j k then Some x else nth_error l j.
Proof. revert k j. induction l as [|a l IH]; intros [|k] [|j] E; simpl in *; try discriminate; auto. Qed.

Lemma mk_holds b t l x : holds t l -> fits x ->
  holds (snd (os_mkfifo pre n port b t x)) (if length l <? m - 1 then l ++ [x] else l).
Proof.
  intros [A B C D E] F. unfold os_mkfifo. cbn [snd]. rewrite named_fits by auto. pose proof (choose_spec t) as Ch.
  destruct (choose port t) as [i|].
  - destruct Ch as (P & Ni). pose proof (count_set t i (pre ++ x) Ni) as Cs.
    assert (Z1 : nth_error (set_nth i (Pipe (pre ++ x)) t) 0 = Some Unused).
    { rewrite (set_at _ _ _ _ _ Ni). destruct (Nat.eqb_spec 0 i); [lia|auto]. }
    pose proof (count_le _ Z1) as Le. rewrite set_nth_length, Cs in Le.
    destruct (Nat.ltb_spec (length l) (m - 1)) as [_|G]; [|lia].
    constructor.
    + rewrite set_nth_length. auto.
    + auto.
    + rewrite Cs, app_length. simpl. lia.
    + intros k s. rewrite (set_at _ _ _ _ _ Ni). destruct (Nat.eqb_spec k i).
      * intros X. injection X as <-. right. exists x. rewrite in_app_iff. simpl. auto.
      * intros X. destruct (D _ _ X) as [|(y & -> & Y)]; auto. right. exists y. rewrite in_app_iff. auto.
    + intros y Y. rewrite in_app_iff in Y. destruct Y as [Y|[->|[]]].
      * destruct (E y Y) as (k & K). exists k. rewrite (set_at _ _ _ _ _ Ni). destruct (Nat.eqb_spec k i); [congruence|auto].
      * exists i. rewrite (set_at _ _ _ _ _ Ni), Nat.eqb_refl. auto.
  - assert (G : count t = m - 1).
    { destruct t as [|s t]; simpl in B; [discriminate|]. injection B as ->. unfold count. simpl. simpl in A. rewrite <- A. simpl. rewrite Nat.sub_0_r.
      apply count_all. intros k K. specialize (Ch (S k) K). lia. }
    destruct (Nat.ltb_spec (length l) (m - 1)); [lia|]. constructor; auto.
Qed.

Lemma makes_holds ops : forall t l, holds t l -> Forall (fun o => fits (snd o)) ops ->
  holds (makes pre n port t ops) (l ++ firstn (m - 1 - length l) (map snd ops)).
Proof.
  induction ops as [|[b x] ops IH]; intros t l H F; cbn [makes map snd].
  - rewrite firstn_nil, app_nil_r. auto.
  - inversion_clear F as [|? ? Fx F']. cbn [snd] in Fx. pose proof (mk_holds b t l x H Fx) as H1. specialize (IH _ _ H1 F').
    destruct (Nat.ltb_spec (length l) (m - 1)) as [Q|Q].
    + rewrite app_length in IH. simpl in IH. rewrite <- app_assoc in IH. replace (m - 1 - length l) with (S (m - 1 - (length l + 1))) by lia.
      exact IH.
    + replace (m - 1 - length l) with 0 in * by lia. exact IH.
Qed.
Lemma start_holds : 0 < m -> holds (repeat Unused m) [].
Proof.
  intros P. constructor.
  - apply repeat_length.
  - destruct m; [lia|reflexivity].
  - unfold count. clear. induction m; simpl; auto.
  - intros k s E. left. apply nth_error_In, repeat_spec in E. auto.
  - intros x [].
Qed.

(* what is found *)
Lemma pseudo_some name t : forall q k, nth_error t k = Some (Pipe q) -> q = named pre n name \/ q = name ->
  (forall k s, nth_error t k = Some s -> forall r, s <> Other r) ->
  exists q', pseudo pre n name t = Some (Pipe q') /\ (q' = named pre n name \/ q' = name) /\ In (Pipe q') t.
Proof.
  induction t as [|s t IH]; intros q k E H O; [destruct k; discriminate|]. simpl.
  assert (O' : forall k s, nth_error t k = Some s -> forall r, s <> Other r) by (intros j; apply (O (S j))).
  destruct s as [|p|r]; simpl.
  - destruct k as [|k]; [discriminate|]. destruct (IH q k E H O') as (q' & A & B & C). exists q'. auto.
  - destruct (teq (named pre n name) p || teq name p) eqn:T.
    + exists p. split; auto. apply orb_true_iff in T. rewrite !teq_eq in T. split; auto. destruct T; auto.
    + destruct k as [|k].
      * simpl in E. injection E as ->. apply orb_false_iff in T. destruct T as [T1 T2]. rewrite <- not_true_iff_false, teq_eq in T1, T2.
        destruct H; congruence.
      * destruct (IH q k E H O') as (q' & A & B & C). exists q'. auto.
  - exfalso. apply (O 0 _ eq_refl r). reflexivity.
Qed.
Lemma pseudo_inv name t s : pseudo pre n name t = Some s -> In s t /\ exists p, path_of s = Some p /\ (p = named pre n name \/ p = name).
Proof.
  induction t as [|a t IH]; simpl; [discriminate|]. destruct (path_of a) as [p|] eqn:P.
  - destruct (teq (named pre n name) p || teq name p) eqn:T.
    + intros E. injection E as <-. split; auto. exists p. split; auto. apply orb_true_iff in T. rewrite !teq_eq in T. destruct T; auto.
    + intros E. destruct (IH E); auto.
  - intros E. destruct (IH E); auto.
Qed.

Lemma app_cut x y : pre ++ x = pre ++ y -> x = y.
Proof. apply app_inv_head. Qed.

Lemma open_pipe t l x : holds t l -> Forall plain l -> In x l ->
  os_open pre n t x = pre ++ x /\ os_open pre n t (pre ++ x) = pre ++ x.
Proof.
  intros H F I1. rewrite Forall_forall in F. pose proof H as [_ _ _ D E]. destruct (E x I1) as (k & K).
  assert (O : forall k s, nth_error t k = Some s -> forall r, s <> Other r).
  { intros j s J r ->. destruct (D _ _ J) as [|(y & Y & _)]; discriminate. }
  assert (G : forall q, In (Pipe q) t -> exists y, q = pre ++ y /\ In y l).
  { intros q Q. apply In_nth_error in Q. destruct Q as (j & J). destruct (D _ _ J) as [|(y & Y & Z1)]; [discriminate|]. injection Y as ->. eauto. }
  destruct (F x I1) as (Fx & Px). split; unfold os_open.
  - destruct (pseudo_some x t (pre ++ x) k K) as (q & -> & M & Q); auto; [left; symmetry; apply named_fits; auto|].
    destruct M as [->| ->]; [apply named_fits; auto|]. destruct (G _ Q) as (y & Y & _). destruct (Px y Y).
  - destruct (pseudo_some (pre ++ x) t (pre ++ x) k K) as (q & -> & M & Q); auto.
    destruct M as [->| ->]; auto. destruct (G _ Q) as (y & Y & Yl). exfalso. rewrite named_app in Y. apply app_cut in Y.
    destruct (F y Yl) as (_ & Py). rewrite firstn_app, firstn_all2 in Y by lia. eapply Py. symmetry. exact Y.
Qed.
Lemma open_other t l x : holds t l -> fits x -> ~ In x l -> (forall y, In y l -> x <> pre ++ y) -> os_open pre n t x = x.
Proof.
  intros [_ _ _ D _] F N1 N2. unfold os_open. destruct (pseudo pre n x t) as [[|p|r]|] eqn:E; auto.
  destruct (pseudo_inv _ _ _ E) as (I1 & q & Q & M). injection Q as <-. apply In_nth_error in I1. destruct I1 as (k & K).
  destruct (D _ _ K) as [|(y & Y & Yl)]; [discriminate|]. injection Y as ->. destruct M as [M|M]; [|congruence].
  rewrite named_fits in M by auto. apply app_cut in M. subst. tauto.
Qed.

(* the pipes of a program: the first m - 1 *)
Definition kept (ops : list (bool * text)) : list text := firstn (m - 1) (map snd ops).
Definition made (ops : list (bool * text)) : table := makes pre n port (repeat Unused m) ops.

Lemma made_holds ops : 0 < m -> Forall (fun o => plain (snd o)) ops -> holds (made ops) (kept ops) /\ Forall plain (kept ops).
Proof.
  intros P F. split.
  - pose proof (makes_holds ops _ _ (start_holds P)) as X. cbn [length] in X. rewrite Nat.sub_0_r in X. apply X.
    eapply Forall_impl; [|exact F]. intros o (A & _). auto.
  - unfold kept. rewrite Forall_forall in *. intros x I1. assert (I2 : In x (map snd ops)).
    { rewrite <- (firstn_skipn (m - 1)). apply in_app_iff. auto. }
    apply in_map_iff in I2. destruct I2 as (o & <- & I2). auto.
Qed.
Lemma pipes ops x : 0 < m -> Forall (fun o => plain (snd o)) ops -> In x (kept ops) ->
  os_open pre n (made ops) x = pre ++ x /\ os_open pre n (made ops) (pre ++ x) = pre ++ x.
Proof. intros P F I1. destruct (made_holds ops P F) as (A & B). eapply open_pipe; eauto. Qed.
Lemma others ops x : 0 < m -> Forall (fun o => plain (snd o)) ops -> fits x -> ~ In x (kept ops) -> (forall y, In y (kept ops) -> x <> pre ++ y) ->
  os_open pre n (made ops) x = x.
Proof. intros P F. destruct (made_holds ops P F) as (A & B). eapply open_other; eauto. Qed.

(* long names *)
Lemma long_same b t x y : (exists k, nth_error t (S k) = Some Unused) -> (forall k s, nth_error t k = Some s -> s = Unused) ->
  ~ fits x -> firstn (n - 1 - length pre) y = firstn (n - 1 - length pre) x ->
  let r := os_mkfifo pre n port b t x in
  snd (fst r) = pre ++ firstn (n - 1 - length pre) x /\ os_open pre n (snd r) y = pre ++ firstn (n - 1 - length pre) x.
Proof.
  intros (j & J) U _ E. unfold os_mkfifo. cbn [fst snd]. rewrite named_app. split; auto. pose proof (choose_spec t) as Ch.
  destruct (choose port t) as [i|]; [|specialize (Ch _ J); lia]. destruct Ch as (P & Ni). unfold os_open.
  set (p := pre ++ firstn (n - 1 - length pre) x). destruct (pseudo_some y (set_nth i (Pipe p) t) p i) as (q & -> & _ & Q).
  - rewrite (set_at _ _ _ _ _ Ni), Nat.eqb_refl. auto.
  - left. rewrite named_app, E. auto.
  - intros k s. rewrite (set_at _ _ _ _ _ Ni). destruct (Nat.eqb k i).
    + intros X. injection X as <-. discriminate.
    + intros X. rewrite (U _ _ X). discriminate.
  - apply In_nth_error in Q. destruct Q as (k & K). rewrite (set_at _ _ _ _ _ Ni) in K. destruct (Nat.eqb k i); [congruence|].
    apply U in K. discriminate.
Qed.
End S.

Lemma answer pre n port b t x : fst (fst (os_mkfifo pre n port b t x)) = (if b then 0 else -1)%Z.
Proof. reflexivity. Qed.
Lemma made_as pre n port b t x : fits pre n x ->
  fst (fst (os_mkfifo pre n port b t x)) = (if b then 0 else -1)%Z /\ snd (fst (os_mkfifo pre n port b t x)) = pre ++ x.
Proof. intros F. split; [reflexivity|]. unfold os_mkfifo, named. cbn [fst snd]. apply firstn_all2. unfold fits in F. rewrite app_length. lia. Qed.

Section T.
Variable pre : text.
Variable n port m : nat.
Hypothesis room : 2 * length pre < n.
Hypothesis portpos : 0 < port.

Lemma makes_app ops b x : forall t, makes pre n port t (ops ++ [(b, x)]) = snd (os_mkfifo pre n port b (makes pre n port t ops) x).
Proof. induction ops as [|[c y] ops IH]; intros t; cbn [makes app]; [reflexivity|apply IH]. Qed.
Lemma not_own x : pre <> [] -> x <> pre ++ x.
Proof. intros N E. apply (f_equal (@length Z)) in E. rewrite app_length in E. destruct pre; [congruence|simpl in E; lia]. Qed.

Lemma full ops x : 0 < m -> pre <> [] ->
  Forall (fun o => plain pre n (snd o)) ops -> m - 1 <= length ops -> ~ In x (kept m ops) -> plain pre n x ->
  fst (os_mkfifo pre n port true (made pre n port m ops) x) = (0%Z, pre ++ x) /\
  os_open pre n (snd (os_mkfifo pre n port true (made pre n port m ops) x)) x = x /\ x <> pre ++ x.
Proof.
  intros P N F L K (Fx & Px). split; [|split; [|apply not_own; auto]].
  - unfold os_mkfifo. cbn [fst]. unfold named. rewrite firstn_all2; auto. unfold fits in Fx. rewrite app_length. lia.
  - unfold made. rewrite <- makes_app. apply (others pre n port m room portpos); auto.
    + apply Forall_app. split; auto. constructor; auto. split; auto.
    + unfold kept in *. rewrite map_app, firstn_app, map_length. replace (m - 1 - length ops) with 0 by lia. simpl. rewrite app_nil_r. auto.
Qed.
Lemma failed ops x : 0 < m -> pre <> [] ->
  Forall (fun o => plain pre n (snd o)) ops -> length ops < m - 1 -> plain pre n x ->
  fst (fst (os_mkfifo pre n port false (made pre n port m ops) x)) = (-1)%Z /\
  os_open pre n (snd (os_mkfifo pre n port false (made pre n port m ops) x)) x = pre ++ x /\ x <> pre ++ x.
Proof.
  intros P N F L Px. split; [reflexivity|]. split; [|apply not_own; auto].
  unfold made. rewrite <- makes_app. apply (pipes pre n port m room portpos); auto.
  - apply Forall_app. split; auto.
  - unfold kept. rewrite firstn_all2 by (rewrite map_length, app_length; simpl; lia). rewrite map_app, in_app_iff. simpl. auto.
Qed.
End T.
