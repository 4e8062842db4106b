From Verif Require Import Base FcModel.
Local Open Scope Z_scope.

Lemma NoDup_app_l_ : forall (A : Type) (a b : list A), NoDup (a ++ b) -> NoDup a.
Proof. intros A. induction a as [|x a IH]; intros b H; [constructor|]. inversion H; subst. constructor; [intros I_; apply H2; apply in_or_app; left; exact I_|eapply IH; eassumption]. Qed.
Lemma NoDup_app_r_ : forall (A : Type) (a b : list A), NoDup (a ++ b) -> NoDup b.
Proof. intros A. induction a as [|x a IH]; intros b H; [exact H|]. inversion H; subst. eapply IH; eassumption. Qed.
Lemma nodup_app_disj : forall (A : Type) (a b : list A), NoDup (a ++ b) -> forall x, In x a -> ~ In x b.
Proof. intros A. induction a as [|y a IH]; intros b H x I_ J; [contradiction|]. inversion H; subst. destruct I_ as [->|I_]; [apply H2; apply in_or_app; right; exact J|exact (IH b H3 x I_ J)]. Qed.
Lemma NoDup_insert : forall (A : Type) (a b : list A) x, NoDup (a ++ b) -> ~ In x (a ++ b) -> NoDup (a ++ x :: b).
Proof. intros A a b x N I_. apply (Permutation.Permutation_NoDup (l := x :: a ++ b)); [apply Permutation.Permutation_middle|constructor; assumption]. Qed.
Arguments NoDup_app_l_ {A}. Arguments NoDup_app_r_ {A}. Arguments nodup_app_disj {A}. Arguments NoDup_insert {A}.

Definition cell_of (o : op) : nat := match o with Protect c | Fence c => c end.
Definition is_fence (o : op) : bool := match o with Fence _ => true | Protect _ => false end.
Fixpoint fences (l : list op) : nat := match l with [] => 0 | o :: r => (if is_fence o then 1 else 0) + fences r end.
(* of a list that begins with the latest: what comes before the first fence met, this fence, and what comes before the next *)
Fixpoint before (l : list op) : list op := match l with [] => [] | o :: r => if is_fence o then [] else o :: before r end.
Fixpoint visit (l : list op) : list op := match l with [] => [] | o :: r => o :: (if is_fence o then before r else visit r) end.

Lemma fences_app : forall a b, fences (a ++ b) = (fences a + fences b)%nat.
Proof. induction a as [|o a IH]; intros b; cbn; [reflexivity|]. rewrite IH. lia. Qed.

Lemma before_all : forall l, fences l = 0%nat -> before l = l.
Proof. induction l as [|o l IH]; intros H; [reflexivity|]. cbn in *. destruct (is_fence o); [discriminate|]. rewrite IH by exact H. reflexivity. Qed.
Lemma visit_all : forall l, (fences l <= 1)%nat -> visit l = l.
Proof.
  induction l as [|o l IH]; intros H; [reflexivity|]. cbn in *. destruct (is_fence o); [rewrite before_all by lia; reflexivity|]. rewrite IH by lia. reflexivity.
Qed.

(* records is: from p on, valid, for these cells, ending in e *)
Fixpoint chain (ns : nat -> node) (p : option nat) (is_ : list nat) (cs : list nat) (e : option nat) : Prop :=
  match is_, cs with
  | [], [] => p = e
  | i :: is_', c :: cs' => p = Some i /\ valid (ns i) = true /\ cell (ns i) = c /\ chain ns (next (ns i)) is_' cs' e
  | _, _ => False
  end.

Lemma chain_upd : forall ns i v is_ p cs e, ~ In i is_ -> chain ns p is_ cs e -> chain (upd ns i v) p is_ cs e.
Proof.
  intros ns i v. induction is_ as [|j is_ IH]; intros p cs e N H; destruct cs as [|c cs]; cbn [chain] in *; try exact H; try contradiction.
  destruct H as (H1 & H2 & H3 & H4). unfold upd at 1 2 4. destruct (Nat.eqb_spec j i) as [->|]; [exfalso; apply N; left; reflexivity|].
  split; [exact H1|]. split; [exact H2|]. split; [exact H3|]. apply IH; [intros I_; apply N; right; exact I_|exact H4].
Qed.

(* the chain is followed: each word is released, and at its end there is nothing, or a record already released *)
Lemma unwind_chain : forall word is_ ns p cs e temp out n, chain ns p is_ cs e -> NoDup is_ ->
  (match e with None => True | Some j => In j is_ \/ valid (ns j) = false end) -> (length is_ < n)%nat ->
  Forall (fun c => usable (word c) = true) cs -> NoDup (out ++ map word cs) -> In temp (0 :: out) ->
  unwind n word ns p temp out = Ok (out ++ map word cs).
Proof.
  intros word. induction is_ as [|i is_ IH]; intros ns p cs e temp out n C N E L U D T; destruct n as [|n]; try (cbn in L; lia); destruct cs as [|c cs]; cbn [chain] in C; try contradiction.
  - subst p. cbn [unwind map]. rewrite app_nil_r. destruct e as [j|]; [|reflexivity]. destruct E as [[]|E]. rewrite E. reflexivity.
  - destruct C as (-> & V & <- & C). cbn [unwind]. rewrite V. cbn [negb]. set (w := word (cell (ns i))) in *.
    inversion U as [|? ? U1 U2]; subst. inversion N as [|? ? N1 N2]; subst. cbn [map] in D.
    assert (W : ~ In w out). { intros I_. apply NoDup_remove_2 in D. apply D. apply in_or_app. left. exact I_. }
    assert (T' : temp =? w = false).
    { apply Z.eqb_neq. intros W0. subst temp. destruct T as [T|T]; [|contradiction]. unfold usable in U1. apply Z.ltb_lt in U1. fold w in U1. lia. }
    fold w in U1. rewrite T', U1. cbn [orb negb].
    assert (X : existsb (Z.eqb w) out = false).
    { destruct (existsb (Z.eqb w) out) eqn:X; [|reflexivity]. apply existsb_exists in X as (y & Y & Q). apply Z.eqb_eq in Q. subst y. contradiction. }
    rewrite X. rewrite (IH _ _ cs e w (out ++ [w]) n).
    + rewrite <- app_assoc. reflexivity.
    + apply chain_upd; [exact N1|exact C].
    + exact N2.
    + destruct e as [j|]; [|exact Logic.I]. destruct (Nat.eq_dec j i) as [->|J]; [right; unfold upd; rewrite Nat.eqb_refl; reflexivity|].
      destruct E as [[<-|E]|E]; [contradiction|left; exact E|right]. unfold upd. destruct (Nat.eqb_spec j i); [contradiction|exact E].
    + cbn in L. lia.
    + exact U2.
    + rewrite <- app_assoc. exact D.
    + right. apply in_or_app. right. left. reflexivity.
Qed.

Definition ending_ (l : list op) : option nat := if Nat.eqb (fences l) 0 then None else Some 0%nat.

(* what a block of protections leaves; r: its operations, latest first *)
Definition shape (s : rst) (r : list op) : Prop := exists pre post,
  chain (nodes s) (stack s) pre (map cell_of (before r)) (ending_ r) /\
  (forall q c r', r = q ++ Fence c :: r' -> fences q = 0%nat ->
     valid (nodes s 0%nat) = true /\ cell (nodes s 0%nat) = c /\ chain (nodes s) (next (nodes s 0%nat)) post (map cell_of (before r')) (ending_ r')) /\
  NoDup (pre ++ post) /\ (forall i, In i (pre ++ post) -> (1 <= i < fresh s)%nat) /\ (1 <= fresh s)%nat /\
  (length pre <= fresh s - 1)%nat /\ (length pre + length post <= fresh s - 1)%nat.

Lemma nodup_bound : forall l n, NoDup l -> (forall i, In i l -> (1 <= i < n)%nat) -> (length l <= n - 1)%nat.
Proof.
  intros l n N B. assert (H : incl l (seq 1 (n - 1))) by (intros i I_; apply in_seq; specialize (B i I_); lia).
  pose proof (NoDup_incl_length N H). rewrite seq_length in H0. exact H0.
Qed.

Lemma shape_step : forall s r o, shape s r -> shape (step s o) (o :: r).
Proof.
  intros s r o (pre & post & C & P & N & B & F & _ & _). destruct o as [c|c]; cbn [step].
  - exists (fresh s :: pre), post. cbn [nodes stack fresh before is_fence map cell_of chain].
    assert (NI : ~ In (fresh s) (pre ++ post)) by (intros I_; specialize (B _ I_); lia).
    split; [|split; [|split; [|split; [|split]]]].
    + split; [reflexivity|]. unfold upd at 1 2 4. rewrite Nat.eqb_refl. cbn [valid cell next]. split; [reflexivity|]. split; [reflexivity|].
      apply chain_upd; [intros I_; apply NI; apply in_or_app; left; exact I_|]. exact C.
    + intros q c' r' E Q. destruct q as [|o q]; [discriminate|]. injection E as <- E. cbn in Q. destruct (P q c' r' E Q) as (P1 & P2 & P3).
      unfold upd at 1 2 4. destruct (Nat.eqb_spec 0 (fresh s)); [lia|]. split; [exact P1|]. split; [exact P2|].
      apply chain_upd; [intros I_; apply NI; apply in_or_app; right; exact I_|exact P3].
    + cbn [app]. constructor; assumption.
    + cbn [app]. intros i [<-|I_]; [lia|]. specialize (B i I_). lia.
    + lia.
    + pose proof (nodup_bound (fresh s :: pre ++ post) (S (fresh s)) ltac:(constructor; assumption) ltac:(intros i [<-|I_]; [lia|specialize (B i I_); lia])) as K.
      cbn [length] in K |- *. rewrite app_length in K. lia.
  - exists [], pre. cbn [nodes stack fresh before is_fence map app].
    assert (NP : NoDup pre) by (apply (NoDup_app_l_ pre post); exact N).
    assert (BP : forall i, In i pre -> (1 <= i < fresh s)%nat) by (intros i I_; apply B; apply in_or_app; left; exact I_).
    split; [|split; [|split; [|split; [|split]]]].
    + reflexivity.
    + intros q c' r' E Q. destruct q as [|o q].
      * injection E as <- <-. unfold upd at 1 2 4. cbn [Nat.eqb valid cell next]. split; [reflexivity|]. split; [reflexivity|].
        apply chain_upd; [intros I_; specialize (BP _ I_); lia|exact C].
      * injection E as <- E. cbn in Q. discriminate.
    + exact NP.
    + exact BP.
    + exact F.
    + pose proof (nodup_bound pre (fresh s) NP BP). cbn [length]. lia.
Qed.

Lemma block_shape : forall l, shape (block l) (rev l).
Proof.
  intros l. rewrite <- (rev_involutive l) at 1. induction (rev l) as [|o r IH]; cbn [rev].
  - exists [], []. cbn. repeat split; try lia; try constructor; try contradiction. all: destruct q; discriminate.
  - unfold block. rewrite fold_left_app. cbn [fold_left]. apply shape_step. exact IH.
Qed.

Lemma visit_split : forall r, (fences r = 0%nat /\ visit r = before r) \/
  exists q c r', r = q ++ Fence c :: r' /\ fences q = 0%nat /\ visit r = before r ++ Fence c :: before r'.
Proof.
  induction r as [|[c|c] r IH]; [left; auto| |].
  - destruct IH as [(A & B)|(q & d & r' & A & B & C)]; [left; cbn; rewrite A, B; auto|right]. exists (Protect c :: q), d, r'. cbn. rewrite <- A, B, C. auto.
  - right. exists [], c, r. cbn. auto.
Qed.

Lemma chain_app : forall ns is1 is2 p cs1 cs2 m e, chain ns p is1 cs1 m -> chain ns m is2 cs2 e -> chain ns p (is1 ++ is2) (cs1 ++ cs2) e.
Proof.
  intros ns. induction is1 as [|i is1 IH]; intros is2 p cs1 cs2 m e C1 C2; destruct cs1 as [|c cs1]; cbn [chain app] in *; try contradiction.
  - subst m. exact C2.
  - destruct C1 as (A & B & C & D). repeat split; try assumption. eapply IH; eassumption.
Qed.

Lemma before_in : forall r o, In o (before r) -> In o r.
Proof. induction r as [|a r IH]; intros o I_; cbn in *; [exact I_|]. destruct (is_fence a); [contradiction|]. destruct I_ as [->|I_]; [left; reflexivity|right; auto]. Qed.
Lemma visit_in : forall r o, In o (visit r) -> In o r.
Proof. induction r as [|a r IH]; intros o; cbn; [auto|]. intros [->|I_]; [left; reflexivity|]. right. destruct (is_fence a); [apply before_in; exact I_|auto]. Qed.

(* the exception leaves the block *)
Lemma thrown_eq : forall word l, Forall (fun o => usable (word (cell_of o)) = true) l -> NoDup (map (fun o => word (cell_of o)) (visit (rev l))) ->
  thrown word l = Ok (map (fun o => word (cell_of o)) (visit (rev l))).
Proof.
  intros word l U D. destruct (block_shape l) as (pre & post & C & P & N & B & F & L1 & L2). unfold thrown. set (s := block l) in *.
  assert (V : Forall (fun o => usable (word (cell_of o)) = true) (visit (rev l))).
  { apply Forall_forall. intros o I_. rewrite Forall_forall in U. apply U. apply in_rev. apply visit_in. exact I_. }
  rewrite <- (map_map cell_of word) in *. destruct (visit_split (rev l)) as [(Q & E)|(q & c & r' & E & Q & E2)].
  - rewrite E in *. apply (unwind_chain word pre (nodes s) (stack s) _ (ending_ (rev l)) 0 []).
    + exact C.
    + apply (NoDup_app_l_ pre post N).
    + unfold ending_. rewrite Q. exact Logic.I.
    + lia.
    + apply Forall_map. exact V.
    + exact D.
    + left. reflexivity.
  - destruct (P q c r' E Q) as (P1 & P2 & P3). rewrite E2 in *.
    apply (unwind_chain word (pre ++ 0%nat :: post) (nodes s) (stack s) _ (ending_ r') 0 []).
    + rewrite map_app. apply (chain_app (nodes s) pre (0%nat :: post) _ _ _ (ending_ (rev l))); [exact C|].
      cbn [map cell_of chain]. unfold ending_. rewrite E, fences_app, Q. cbn [fences is_fence Nat.add Nat.eqb]. repeat split; assumption.
    + apply NoDup_insert; [exact N|]. intros I_. specialize (B _ I_). lia.
    + unfold ending_. destruct (Nat.eqb (fences r') 0); [exact Logic.I|]. left. apply in_or_app. right. left. reflexivity.
    + rewrite app_length. cbn [length]. lia.
    + apply Forall_map. exact V.
    + exact D.
    + left. reflexivity.
Qed.

(* at most one fence: all of them, the latest first *)
Lemma thrown_all : forall word l, (fences l <= 1)%nat -> Forall (fun o => usable (word (cell_of o)) = true) l -> NoDup (map (fun o => word (cell_of o)) l) ->
  thrown word l = Ok (map (fun o => word (cell_of o)) (rev l)).
Proof.
  intros word l H U D. assert (R : fences (rev l) = fences l) by (clear; induction l as [|o l IH]; [reflexivity|]; cbn [rev fences]; rewrite fences_app, IH; cbn; lia).
  rewrite thrown_eq; rewrite ?visit_all by lia; [reflexivity|exact U|]. rewrite map_rev. apply NoDup_rev. exact D.
Qed.

(* two fences: nothing that was protected before the first of them is released *)
Lemma thrown_lost : forall word a c b d, Forall (fun o => usable (word (cell_of o)) = true) (a ++ Fence c :: b ++ [Fence d]) -> fences b = 0%nat ->
  NoDup (map (fun o => word (cell_of o)) (a ++ Fence c :: b ++ [Fence d])) ->
  exists out, thrown word (a ++ Fence c :: b ++ [Fence d]) = Ok out /\ out = word d :: map (fun o => word (cell_of o)) (rev b) /\
    forall o, In o a -> ~ In (word (cell_of o)) out.
Proof.
  intros word a c b d U Q D. set (f := fun o => word (cell_of o)) in *.
  assert (V : visit (rev (a ++ Fence c :: b ++ [Fence d])) = Fence d :: rev b).
  { rewrite rev_app_distr. cbn [rev]. rewrite rev_app_distr. cbn [rev app visit is_fence]. f_equal.
    assert (R : forall x y, fences x = 0%nat -> before (x ++ Fence c :: y) = x).
    { induction x as [|o x IH]; intros y X; [reflexivity|]. cbn in *. destruct (is_fence o); [discriminate|]. rewrite IH by exact X. reflexivity. }
    rewrite <- app_assoc. cbn [app]. apply R. clear - Q. induction b as [|o b IH]; [reflexivity|]. cbn [rev fences] in *. rewrite fences_app. cbn. rewrite IH by lia. lia. }
  assert (D1 : NoDup (map f (visit (rev (a ++ Fence c :: b ++ [Fence d]))))).
  { rewrite V. apply (Permutation.Permutation_NoDup (l := map f (b ++ [Fence d]))).
    - apply Permutation.Permutation_map. rewrite <- Permutation.Permutation_cons_append. constructor. apply Permutation.Permutation_rev.
    - rewrite map_app in D. cbn [map] in D. apply NoDup_app_r_ in D. inversion D; subst. assumption. }
  rewrite (thrown_eq word _ U D1). eexists. split; [reflexivity|]. rewrite V. split; [reflexivity|].
  intros o I_ J. rewrite map_app in D. cbn [map] in D. cbn [map] in J.
  apply (nodup_app_disj _ _ D (f o)); [apply in_map; exact I_|]. right. rewrite map_app. apply in_or_app. destruct J as [J|J]; [right; left; exact J|left].
  rewrite map_rev in J. apply in_rev in J. exact J.
Qed.

(* -- trying -- *)
Definition result (e : ending) : Z := match e with Ret v => v | Throw (Some v) => v | Throw None => 0 end.
Definition throws (e : ending) : bool := match e with Ret _ => false | Throw _ => true end.
Definition blk (x : bool * nat * ending) : nat := snd (fst x).

Lemma trying_eq : forall guarded fin b e s d, deferred s = Some d -> freed s = [] -> guarded && throws e = false ->
  exists s', trying guarded fin b e s = Ok (result e, s') /\ freed s' = [] /\ deferred s' = Some (b :: d) /\
    (forall j, value s' j = if Nat.eqb j b then result e else value s j) /\ finals s' = finals s ++ (if fin then [(b, result e)] else []).
Proof.
  intros guarded fin b e s d D F G. unfold trying. rewrite D, F. cbn [filter].
  assert (X : forall u, exists s', (do s2 <- Ok (mkTst [] (Some (b :: d)) u (finals s));
      if existsb (Nat.eqb b) (freed s2) then UB else Ok (value s2 b, mkTst (freed s2) (deferred s2) (value s2) (if fin then finals s2 ++ [(b, value s2 b)] else finals s2)))
      = Ok (u b, s') /\ freed s' = [] /\ deferred s' = Some (b :: d) /\ (forall j, value s' j = u j) /\ finals s' = finals s ++ (if fin then [(b, u b)] else [])).
  { intros u. cbn [bind freed existsb value deferred finals]. eexists. split; [reflexivity|]. cbn [freed deferred value finals]. destruct fin; rewrite ?app_nil_r; auto. }
  destruct e as [v|[v|]]; cbn [throws result] in *.
  - unfold put. cbn [freed existsb deferred value finals]. destruct (X (upd (upd (value s) b 0) b v)) as (s' & A & B & C & V & K).
    assert (U : upd (upd (value s) b 0) b v b = v) by (unfold upd; rewrite Nat.eqb_refl; reflexivity). rewrite U in A, K.
    exists s'. repeat split; try assumption. intros j. rewrite V. unfold upd. destruct (Nat.eqb j b); reflexivity.
  - rewrite andb_true_r in G. subst guarded. unfold put. cbn [freed existsb deferred value finals]. destruct (X (upd (upd (value s) b 0) b v)) as (s' & A & B & C & V & K).
    assert (U : upd (upd (value s) b 0) b v b = v) by (unfold upd; rewrite Nat.eqb_refl; reflexivity). rewrite U in A, K.
    exists s'. repeat split; try assumption. intros j. rewrite V. unfold upd. destruct (Nat.eqb j b); reflexivity.
  - rewrite andb_true_r in G. subst guarded. destruct (X (upd (value s) b 0)) as (s' & A & B & C & V & K).
    assert (U : upd (value s) b 0 b = 0) by (unfold upd; rewrite Nat.eqb_refl; reflexivity). rewrite U in A, K.
    exists s'. repeat split; assumption.
Qed.

Lemma all_trying_eq : forall guarded l s d out, deferred s = Some d -> freed s = [] -> Forall (fun x => guarded && throws (snd x) = false) l -> NoDup (map blk l) ->
  exists s', all_trying guarded l s out = Ok (out ++ map (fun x => result (snd x)) l, s') /\ freed s' = [] /\ deferred s' = Some (rev (map blk l) ++ d) /\
    (forall x, In x l -> value s' (blk x) = result (snd x)) /\ (forall j, ~ In j (map blk l) -> value s' j = value s j) /\
    finals s' = finals s ++ map (fun x => (blk x, result (snd x))) (filter (fun x => fst (fst x)) l).
Proof.
  intros guarded. induction l as [|[[fin b] e] l IH]; intros s d out D F G N; cbn [all_trying map filter rev app].
  - exists s. rewrite !app_nil_r. repeat split; try assumption; try (intros x []); try (rewrite D; reflexivity).
  - inversion G as [|? ? G1 G2]; subst. cbn [snd] in G1. inversion N as [|? ? N1 N2]; subst. cbn [blk fst snd] in N1.
    destruct (trying_eq guarded fin b e s d D F G1) as (s1 & A & B & C & V & K). rewrite A. cbn [bind fst snd].
    destruct (IH s1 (b :: d) (out ++ [result e]) C B G2 N2) as (s' & A' & B' & C' & V' & W' & K'). exists s'. split; [|split; [|split; [|split; [|split]]]].
    + rewrite A', <- app_assoc. reflexivity.
    + exact B'.
    + rewrite C', <- app_assoc. reflexivity.
    + intros x [<-|I_]; [|apply V'; exact I_]. cbn [blk fst snd]. rewrite W' by exact N1. rewrite V, Nat.eqb_refl. reflexivity.
    + intros j J. rewrite W' by (intros I_; apply J; right; exact I_). rewrite V. destruct (Nat.eqb_spec j b) as [->|]; [exfalso; apply J; left; reflexivity|reflexivity].
    + rewrite K', K, <- app_assoc. cbn [fst]. destruct fin; reflexivity.
Qed.

Lemma trying_right : forall guarded l, guarded = false \/ Forall (fun x => throws (snd x) = false) l -> NoDup (map blk l) ->
  exists s', all_trying guarded l start [] = Ok (map (fun x => result (snd x)) l, s') /\
    (forall x, In x l -> value s' (blk x) = result (snd x)) /\
    finals s' = map (fun x => (blk x, result (snd x))) (filter (fun x => fst (fst x)) l) /\
    freed s' = [] /\ freed (scope_unwind s') = rev (map blk l).
Proof.
  intros guarded l G N. destruct (all_trying_eq guarded l start [] [] eq_refl eq_refl) as (s' & A & B & C & V & _ & K); [|exact N|].
  - destruct G as [->|G]; [apply Forall_forall; reflexivity|]. eapply Forall_impl; [|exact G]. cbn. intros x ->. apply andb_false_r.
  - exists s'. rewrite app_nil_r in C. repeat split; try assumption. unfold scope_unwind. rewrite C. cbn [freed]. rewrite B. reflexivity.
Qed.

(* in a guard: the value was released before catchFunc's result is stored *)
Lemma trying_guarded : forall fin b c s, trying true fin b (Throw c) s = UB.
Proof.
  intros fin b c s. unfold trying. destruct (deferred s) as [d|] eqn:D; [|reflexivity]. unfold scope_unwind. cbn [deferred freed value finals].
  assert (E : existsb (Nat.eqb b) (filter (fun x => negb (Nat.eqb x b)) (freed s) ++ b :: d) = true).
  { apply existsb_exists. exists b. split; [apply in_or_app; right; left; reflexivity|apply Nat.eqb_refl]. }
  destruct c as [v|]; unfold put; cbn [freed]; rewrite ?E; cbn [bind freed]; rewrite ?E; reflexivity.
Qed.

(* outside a guard, when an exception leaves the block later: the value of the last trying is what is released *)
Lemma trying_value_released : forall word a c, Forall (fun o => usable (word (cell_of o)) = true) (a ++ [Fence c]) ->
  NoDup (map (fun o => word (cell_of o)) (a ++ [Fence c])) -> exists r, thrown word (a ++ [Fence c]) = Ok (word c :: r).
Proof.
  intros word a c U D. rewrite thrown_eq; rewrite ?rev_app_distr; cbn [rev app visit is_fence map cell_of]; [eexists; reflexivity|exact U|].
  rewrite map_app in D. cbn [map cell_of] in D. assert (B : forall r, exists t, r = before r ++ t).
  { induction r as [|o r (t & IH)]; [exists []; reflexivity|]. cbn. destruct (is_fence o); [exists (o :: r); reflexivity|]. exists t. cbn. rewrite <- IH. reflexivity. }
  destruct (B (rev a)) as (t & E). apply (Permutation.Permutation_NoDup (l' := word c :: map (fun o => word (cell_of o)) (rev a))) in D.
  - rewrite E, map_app in D. apply (NoDup_app_l_ (word c :: map (fun o => word (cell_of o)) (before (rev a))) _ D).
  - rewrite <- Permutation.Permutation_cons_append. constructor. apply Permutation.Permutation_map. apply Permutation.Permutation_rev.
Qed.
