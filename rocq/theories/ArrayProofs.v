(* Proofs about the dynamic array model. *)
From Verif Require Import Base ArrayModel.

Section P.
Variable A : Type.
Implicit Types (b : block A) (l : list A).

(* Independent specification: mathematical sequences. *)
Inductive sop := SPush (v : A) | SDropLast | SDropFirst | SDelete (i : nat) | SClear | SNop.

Definition sstep (l : list A) (o : sop) : list A * option A :=
  match o with
  | SPush v => (l ++ [v], None)
  | SDropLast => match rev l with [] => ([], None) | x :: r => (rev r, Some x) end
  | SDropFirst => match l with [] => ([], None) | x :: r => (r, Some x) end
  | SDelete i => (firstn i l ++ skipn (S i) l, None)
  | SClear => ([], None)
  | SNop => (l, None)
  end.

Fixpoint srun (l : list A) (os : list sop) : list A * list (option A) :=
  match os with
  | [] => (l, [])
  | o :: r => let '(l1, x) := sstep l o in let '(l2, xs) := srun l1 r in (l2, x :: xs)
  end.

Definition spec_of (o : op A) : sop :=
  match o with
  | OAppend v => SPush v
  | OPop => SDropLast
  | OShift => SDropFirst
  | ORemove i => SDelete i
  | OReset => SClear
  | OReserve _ => SNop
  end.

(* The visible contents of a block. *)
Definition holds b l : Prop :=
  b_size b = length l /\ exists t, b_cells b = map Some l ++ t.

Lemma holds_cap b l : holds b l -> b_size b <= cap b.
Proof.
  intros [Hs [t Ht]]. unfold cap. rewrite Ht, app_length, map_length. lia.
Qed.

Lemma holds_get b l i v : holds b l -> nth_error l i = Some v -> get b i = Ok v.
Proof.
  intros [Hs [t Ht]] Hn. unfold get. rewrite Ht.
  rewrite nth_error_app1.
  - rewrite nth_error_map, Hn. reflexivity.
  - rewrite map_length. apply nth_error_Some. congruence.
Qed.

Lemma holds_observable b l :
  holds b l <-> b_size b = length l /\ b_size b <= cap b /\
                forall i v, nth_error l i = Some v -> get b i = Ok v.
Proof.
  split.
  - intros H. split; [apply H|]. split; [eapply holds_cap; eauto|].
    intros i v. apply holds_get; auto.
  - intros (Hs & Hc & Hg). split; auto.
    exists (skipn (length l) (b_cells b)).
    rewrite <- (firstn_skipn (length l) (b_cells b)) at 1. f_equal.
    apply nth_error_ext. intros i. rewrite nth_error_firstn, nth_error_map.
    destruct (Nat.ltb_spec i (length l)) as [Hi|Hi].
    + destruct (nth_error l i) as [v|] eqn:E.
      * specialize (Hg _ _ E). unfold get in Hg.
        destruct (nth_error (b_cells b) i) as [[w|]|]; try discriminate.
        injection Hg as ->. reflexivity.
      * apply nth_error_None in E. lia.
    + rewrite (proj2 (nth_error_None l i)) by lia. reflexivity.
Qed.

Lemma grow_holds b l n : holds b l -> b_size b <= n -> holds (grow b n) l /\ cap (grow b n) = n.
Proof.
  intros H Hn. pose proof (holds_cap _ _ H) as Hc. destruct H as [Hs [t Ht]].
  split.
  - split; [exact Hs|]. unfold grow; cbn [b_cells].
    exists (firstn (n - length l) t ++ repeat None (n - cap b)).
    assert (E : firstn n (b_cells b) = map Some l ++ firstn (n - length l) t).
    { rewrite Ht, firstn_app, map_length. f_equal.
      apply firstn_all2. rewrite map_length. lia. }
    rewrite E, app_assoc. reflexivity.
  - unfold grow, cap; cbn [b_cells]. unfold cap.
    rewrite app_length, firstn_length, repeat_length. lia.
Qed.

Lemma append_spec b l v :
  holds b l -> b_type b <> T_TUPLE -> 0 < cap b ->
  exists b', append b v = Ok b' /\ holds b' (l ++ [v]) /\ b_type b' = b_type b /\ 0 < cap b'.
Proof.
  intros H HT Hc. unfold append.
  set (b1 := if Nat.leb (cap b) (b_size b) then grow b (cap b * 2) else b).
  pose proof (holds_cap _ _ H) as Hle.
  assert (Hb1 : holds b1 l /\ b_size b1 < cap b1 /\ b_type b1 = b_type b).
  { unfold b1. destruct (Nat.leb_spec (cap b) (b_size b)) as [Hf|Hf].
    - destruct (grow_holds b l (cap b * 2) H) as [G1 G2]; [lia|].
      split; [exact G1|]. split; [|reflexivity].
      rewrite G2. cbn [grow b_size]. lia.
    - auto. }
  clearbody b1. destruct Hb1 as ([Hs [t Ht]] & Hlt & HT1).
  unfold cap in Hlt.
  rewrite (wr_ok _ _ _ Hlt). cbn [bind].
  assert (Hres : holds (mkb (b_type b1) (S (b_size b1)) (set_nth (b_size b1) (Some v) (b_cells b1))) (l ++ [v])).
  { split; cbn [b_size b_cells].
    - rewrite app_length; simpl; lia.
    - destruct t as [|t0 t1].
      + rewrite Ht, app_length, map_length in Hlt; simpl in Hlt. lia.
      + exists t1. rewrite Ht. rewrite set_nth_app_r by (rewrite map_length; lia).
        rewrite map_length, Hs, Nat.sub_diag. cbn [set_nth].
        rewrite map_app, <- app_assoc. reflexivity. }
  destruct (b_type b) eqn:E; try congruence;
  (eexists; split; [reflexivity|]; split; [exact Hres|]; split;
   [cbn; congruence | unfold cap; cbn [b_cells]; rewrite set_nth_length; lia]).
Qed.

Lemma memmove_down_map l t i n :
  i < length l -> n = length l - 1 - i ->
  exists t', memmove_down (map Some l ++ t) i n
             = map Some (firstn i l ++ skipn (S i) l) ++ t'.
Proof.
  intros Hi Hn. unfold memmove_down.
  exists (skipn (i + n) (map Some l ++ t)).
  rewrite firstn_app, map_length.
  replace (i - length l) with 0 by lia. cbn [firstn]. rewrite app_nil_r.
  rewrite skipn_app, map_length.
  replace (S i - length l) with 0 by lia. cbn [skipn].
  rewrite firstn_app.
  assert (E : length (skipn (S i) (map (@Some A) l)) = n)
    by (rewrite skipn_length, map_length; lia).
  change (match map (@Some A) l with [] => [] | _ :: l0 => skipn i l0 end)
    with (skipn (S i) (map (@Some A) l)).
  rewrite (firstn_all2 (skipn (S i) (map (@Some A) l))) by lia. rewrite E, Nat.sub_diag. cbn [firstn]. rewrite app_nil_r.
  rewrite map_app, firstn_map, skipn_map, app_assoc. reflexivity.
Qed.

Lemma memmove_down_len (c : list (option A)) i n :
  i + S n <= length c -> length (memmove_down c i n) = length c.
Proof.
  intros H. unfold memmove_down.
  rewrite !app_length, !firstn_length, !skipn_length. lia.
Qed.

Lemma remove_spec b l i :
  holds b l -> b_type b <> T_TUPLE ->
  exists b', remove b i = Ok b' /\ holds b' (firstn i l ++ skipn (S i) l)
             /\ b_type b' = b_type b /\ cap b' = cap b.
Proof.
  intros H HT. pose proof (holds_cap _ _ H) as Hc.
  destruct H as [Hs [t Ht]].
  unfold remove.
  assert (HK : exists b', (if Nat.ltb i (b_size b) then
      if Nat.leb (b_size b) (cap b) then
        Ok (mkb (b_type b) (b_size b - 1) (memmove_down (b_cells b) i (b_size b - 1 - i)))
      else UB else Ok b) = Ok b' /\ holds b' (firstn i l ++ skipn (S i) l)
             /\ b_type b' = b_type b /\ cap b' = cap b).
  { destruct (Nat.ltb_spec i (b_size b)) as [Hi|Hi].
    - destruct (Nat.leb_spec (b_size b) (cap b)); [|lia].
      eexists; split; [reflexivity|]. split; [|split; [reflexivity|]].
      + split; cbn [b_size b_cells].
        * rewrite app_length, firstn_length, skipn_length. lia.
        * rewrite Ht. apply memmove_down_map; lia.
      + unfold cap; cbn [b_cells]. apply memmove_down_len. unfold cap in *. lia.
    - eexists; split; [reflexivity|]. split; [|auto].
      rewrite firstn_all2, skipn_all2, app_nil_r by lia. split; eauto. }
  destruct (b_type b); auto; congruence.
Qed.

Lemma pop_spec b l :
  holds b l -> b_type b <> T_TUPLE ->
  exists b', pop b = Ok (b', snd (sstep l SDropLast)) /\ holds b' (fst (sstep l SDropLast))
             /\ b_type b' = b_type b /\ cap b' = cap b.
Proof.
  intros H HT. unfold pop.
  assert (Hs : b_size b = length l) by apply H.
  cbn [sstep]. destruct (rev l) as [|x r] eqn:E.
  - assert (l = []) as -> by (rewrite <- (rev_involutive l), E; reflexivity).
    simpl in Hs. rewrite Hs. cbn [Nat.ltb Nat.leb fst snd].
    exists b. destruct (b_type b); auto; congruence.
  - assert (El : l = rev r ++ [x]) by (rewrite <- (rev_involutive l), E; reflexivity).
    assert (Hl : length l = S (length r)) by (rewrite El, app_length, rev_length; simpl; lia).
    destruct (Nat.ltb_spec 0 (b_size b)) as [_|]; [|lia].
    rewrite (holds_get b l (b_size b - 1) x H).
    2:{ rewrite Hs, El, nth_error_app2; rewrite rev_length, app_length, rev_length; simpl; [|lia].
        replace (length r + 1 - 1 - length r) with 0 by lia. reflexivity. }
    destruct (remove_spec b l (b_size b - 1) H HT) as (b' & E1 & E2 & E3 & E4).
    cbn [bind]. rewrite E1. cbn [bind fst snd].
    exists b'.
    assert (Hfin : holds b' (rev r)).
    { replace (rev r) with (firstn (b_size b - 1) l ++ skipn (S (b_size b - 1)) l); auto.
      rewrite skipn_all2 by lia. rewrite app_nil_r, El, firstn_app, rev_length.
      rewrite firstn_all2 by (rewrite rev_length; lia).
      replace (b_size b - 1 - length r) with 0 by lia. cbn [firstn]. now rewrite app_nil_r. }
    destruct (b_type b); auto; congruence.
Qed.

Lemma shift_spec b l :
  holds b l -> b_type b <> T_TUPLE ->
  exists b', shift b = Ok (b', snd (sstep l SDropFirst)) /\ holds b' (fst (sstep l SDropFirst))
             /\ b_type b' = b_type b /\ cap b' = cap b.
Proof.
  intros H HT. unfold shift.
  assert (Hs : b_size b = length l) by apply H.
  destruct l as [|x r]; cbn [sstep fst snd].
  - simpl in Hs. rewrite Hs. cbn [Nat.ltb Nat.leb].
    exists b. destruct (b_type b); auto; congruence.
  - simpl in Hs. destruct (Nat.ltb_spec 0 (b_size b)) as [_|]; [|lia].
    rewrite (holds_get b (x :: r) 0 x H eq_refl).
    destruct (remove_spec b (x :: r) 0 H HT) as (b' & E1 & E2 & E3 & E4).
    cbn [bind]. rewrite E1. cbn [bind].
    exists b'. cbn [firstn skipn app] in E2.
    destruct (b_type b); auto; congruence.
Qed.

Lemma step_spec b l o :
  holds b l -> b_type b <> T_TUPLE -> 0 < cap b ->
  exists b', step b o = Ok (b', snd (sstep l (spec_of o)))
             /\ holds b' (fst (sstep l (spec_of o)))
             /\ b_type b' = b_type b /\ 0 < cap b'.
Proof.
  intros H HT Hc. destruct o as [v| | |i| |n]; cbn [step spec_of].
  - destruct (append_spec b l v H HT Hc) as (b' & E & ? & ? & ?).
    rewrite E. cbn. eauto.
  - destruct (pop_spec b l H HT) as (b' & E & ? & ? & Hc').
    exists b'. rewrite Hc'. auto.
  - destruct (shift_spec b l H HT) as (b' & E & ? & ? & Hc').
    exists b'. rewrite Hc'. auto.
  - destruct (remove_spec b l i H HT) as (b' & E & ? & ? & Hc').
    rewrite E. cbn [bind]. exists b'. rewrite Hc'. auto.
  - unfold reset. exists (mkb (b_type b) 0 (b_cells b)).
    assert (holds (mkb (b_type b) 0 (b_cells b)) []) by (split; simpl; eauto).
    destruct (b_type b); cbn; auto; congruence.
  - exists (reserve b n). unfold reserve. cbn [sstep fst snd].
    split; [reflexivity|].
    destruct (Nat.eqb_spec n 0); auto.
    destruct (Nat.ltb_spec (cap b) n); auto.
    pose proof (holds_cap _ _ H).
    destruct (grow_holds b l n H) as [G1 G2]; [lia|].
    rewrite G2. split; [auto|]. split; [reflexivity|lia].
Qed.

Theorem run_refines_sequence b l os :
  holds b l -> b_type b <> T_TUPLE -> 0 < cap b ->
  exists b', run b os = Ok (b', snd (srun l (map spec_of os)))
             /\ holds b' (fst (srun l (map spec_of os))).
Proof.
  revert b l; induction os as [|o r IH]; intros b l H HT Hc; cbn [run map srun].
  - eauto.
  - destruct (step_spec b l o H HT Hc) as (b1 & E & H1 & HT1 & Hc1).
    rewrite E. cbn [bind].
    destruct (IH b1 (fst (sstep l (spec_of o)))) as (b2 & E2 & H2); auto; [congruence|].
    rewrite E2. cbn [bind]. exists b2.
    destruct (sstep l (spec_of o)) as [l1 x]. cbn [fst snd] in *.
    destruct (srun l1 (map spec_of r)) as [l2 xs]. cbn [fst snd] in *. auto.
Qed.

Lemma fresh_holds n : holds (fresh (A:=A) n) [].
Proof. split; simpl; eauto. Qed.

Lemma append_all_spec l2 : forall b l,
  holds b l -> b_type b <> T_TUPLE -> 0 < cap b ->
  exists b', append_all b l2 = Ok b' /\ holds b' (l ++ l2) /\ b_type b' = b_type b /\ 0 < cap b'.
Proof.
  induction l2 as [|v r IH]; intros b l H HT Hc; cbn [append_all].
  - rewrite app_nil_r. eauto.
  - destruct (append_spec b l v H HT Hc) as (b1 & E & H1 & HT1 & Hc1).
    rewrite E. cbn [bind].
    destruct (IH b1 (l ++ [v])) as (b' & E' & H' & HT' & Hc'); auto; [congruence|].
    rewrite <- app_assoc in H'. cbn [app] in H'. exists b'. rewrite E'.
    split; [reflexivity|]. split; [exact H'|]. split; [congruence|exact Hc'].
Qed.

(* foreach without modification: the body only accumulates a log. *)
Lemma foreach_log b l (f : nat) i acc :
  holds b l -> length l - i <= f ->
  foreach (fun b i v acc => Ok (b, acc ++ [(i, v)])) f b i acc
  = Ok (b, acc ++ combine (seq i (length l - i)) (skipn i l)).
Proof.
  intros H. pose proof (proj1 H) as Hs.
  revert i acc; induction f as [|f IH]; intros i acc Hf.
  - assert (Hi : length l <= i) by lia. simpl.
    destruct (Nat.ltb_spec i (b_size b)); [lia|].
    replace (length l - i) with 0 by lia. cbn. now rewrite app_nil_r.
  - cbn [foreach]. destruct (Nat.ltb_spec i (b_size b)) as [Hi|Hi].
    + destruct (nth_error l i) as [v|] eqn:E.
      2:{ apply nth_error_None in E. lia. }
      rewrite (holds_get b l i v H E). cbn [bind].
      rewrite IH by lia. rewrite <- app_assoc. do 3 f_equal.
      replace (length l - i) with (S (length l - S i)) by lia.
      cbn [seq].
      assert (Hsk : skipn i l = v :: skipn (S i) l).
      { clear -E. revert l E; induction i as [|i IH]; intros [|h t] E; try discriminate.
        - cbn in E. injection E as ->. reflexivity.
        - cbn [skipn]. exact (IH t E). }
      rewrite Hsk. reflexivity.
    + replace (length l - i) with 0 by lia. cbn. now rewrite app_nil_r.
Qed.

Lemma foreach_visits b l :
  holds b l ->
  foreach (fun b i v acc => Ok (b, acc ++ [(i, v)])) (b_size b) b 0 []
  = Ok (b, combine (seq 0 (length l)) l).
Proof.
  intros H. rewrite (foreach_log b l) by (auto; rewrite (proj1 H); lia).
  cbn [app skipn]. now rewrite Nat.sub_0_r.
Qed.

Lemma firstn_S_nth {B} n (l : list B) v :
  nth_error l n = Some v -> firstn (S n) l = firstn n l ++ [v].
Proof.
  revert l; induction n as [|n IH]; intros [|h t] E; try discriminate.
  - cbn in E. injection E as ->. reflexivity.
  - cbn [firstn app]. f_equal. exact (IH t E).
Qed.

Lemma combine_snoc {B C} (l1 : list B) (l2 : list C) x y :
  length l1 = length l2 -> combine (l1 ++ [x]) (l2 ++ [y]) = combine l1 l2 ++ [(x, y)].
Proof.
  revert l2; induction l1 as [|h t IH]; intros [|h2 t2] H; simpl in *; try lia; auto.
  f_equal. apply IH. lia.
Qed.

Lemma foreach_back_visits b l :
  holds b l ->
  foreach_back (fun b i v acc => Ok (b, acc ++ [(i, v)])) b []
  = Ok (b, rev (combine (seq 0 (length l)) l)).
Proof.
  intros H. unfold foreach_back. rewrite (proj1 H).
  assert (G : forall n acc, n <= length l ->
    foreach_back_from (fun b i v acc => Ok (b, acc ++ [(i, v)])) n b acc
    = Ok (b, acc ++ rev (combine (seq 0 n) (firstn n l)))).
  { induction n as [|n IH]; intros acc Hn; cbn [foreach_back_from].
    - cbn. now rewrite app_nil_r.
    - destruct (nth_error l n) as [v|] eqn:E.
      2:{ apply nth_error_None in E. lia. }
      rewrite (holds_get b l n v H E). cbn [bind].
      rewrite IH by lia. rewrite <- app_assoc. do 3 f_equal.
      rewrite (firstn_S_nth n l v E), seq_S. cbn [plus].
      rewrite combine_snoc by (rewrite seq_length, firstn_length; lia).
      rewrite rev_app_distr. reflexivity. }
  rewrite G by lia. rewrite firstn_all. reflexivity.
Qed.

(* foreach with $remove of the current element under a predicate. *)
Definition remove_if (p : A -> bool) : block A -> nat -> A -> list A -> outcome (block A * list A) :=
  fun b i v acc =>
    if p v then do b' <- remove b i; Ok (b', acc ++ [v]) else Ok (b, acc ++ [v]).

(* What the pass really visits: after a removal the next element is jumped over. *)
Fixpoint skip_visit (p : A -> bool) (l : list A) {struct l} : list A * list A :=
  match l with
  | [] => ([], [])
  | x :: r =>
    if p x then
      match r with
      | [] => ([x], [])
      | y :: r' => let '(vis, keep) := skip_visit p r' in (x :: vis, y :: keep)
      end
    else let '(vis, keep) := skip_visit p r in (x :: vis, x :: keep)
  end.

Lemma skip_visit_len (p : A -> bool) : forall n l, length l <= n ->
  length (fst (skip_visit p l)) <= length l /\ length (snd (skip_visit p l)) <= length l.
Proof.
  induction n as [|n IH]; intros [|x r] Hn; simpl in Hn; try lia; cbn [skip_visit]; simpl; try lia.
  destruct (p x).
  - destruct r as [|y r']; [simpl; lia|].
    specialize (IH r'). simpl in Hn.
    destruct (skip_visit p r') as [vis keep]. simpl in *. lia.
  - specialize (IH r). destruct (skip_visit p r) as [vis keep]. simpl in *. lia.
Qed.

Lemma foreach_remove_gen p : forall n pre l b acc f,
  length l <= n -> length l <= f ->
  holds b (pre ++ l) -> b_type b <> T_TUPLE ->
  exists b', foreach (remove_if p) f b (length pre) acc = Ok (b', acc ++ fst (skip_visit p l))
             /\ holds b' (pre ++ snd (skip_visit p l)) /\ b_type b' = b_type b.
Proof.
  induction n as [|n IH]; intros pre l b acc f Hn Hf H HT.
  - destruct l as [|? ?]; simpl in Hn; [|lia].
    exists b. rewrite app_nil_r in *. cbn [skip_visit fst snd]. rewrite !app_nil_r.
    split; [|auto].
    assert (E : Nat.ltb (length pre) (b_size b) = false)
      by (rewrite (proj1 H); apply Nat.ltb_irrefl).
    destruct f; cbn [foreach]; rewrite E; reflexivity.
  - destruct l as [|x r].
    + exists b. rewrite app_nil_r in *. cbn [skip_visit fst snd]. rewrite !app_nil_r.
      split; [|auto].
      assert (E : Nat.ltb (length pre) (b_size b) = false)
        by (rewrite (proj1 H); apply Nat.ltb_irrefl).
      destruct f; cbn [foreach]; rewrite E; reflexivity.
    + destruct f as [|f]; simpl in Hf; [lia|]. simpl in Hn.
      cbn [foreach].
      destruct (Nat.ltb_spec (length pre) (b_size b)) as [_|Hlt].
      2:{ rewrite (proj1 H), app_length in Hlt; simpl in Hlt; lia. }
      rewrite (holds_get b (pre ++ x :: r) (length pre) x H).
      2:{ rewrite nth_error_app2, Nat.sub_diag by lia. reflexivity. }
      cbn [bind]. unfold remove_if at 1. cbn [skip_visit].
      destruct (p x) eqn:Ep.
      * destruct (remove_spec b _ (length pre) H HT) as (b1 & E1 & H1 & HT1 & _).
        rewrite E1. cbn [bind].
        assert (H1' : holds b1 (pre ++ r)).
        { replace (pre ++ r) with (firstn (length pre) (pre ++ x :: r)
                                   ++ skipn (S (length pre)) (pre ++ x :: r)); auto.
          rewrite firstn_app, Nat.sub_diag, firstn_all. cbn [firstn]. rewrite app_nil_r.
          rewrite skipn_app. rewrite skipn_all2 by lia.
          replace (S (length pre) - length pre) with 1 by lia. reflexivity. }
        destruct r as [|y r'].
        -- exists b1. cbn [fst snd]. split; [|split; [auto|congruence]].
           rewrite app_nil_r in *.
           assert (E : Nat.ltb (S (length pre)) (b_size b1) = false)
             by (rewrite (proj1 H1'); apply Nat.ltb_ge; lia).
           destruct f; cbn [foreach]; rewrite E; reflexivity.
        -- simpl in Hn, Hf.
           assert (H1'' : holds b1 ((pre ++ [y]) ++ r')) by (rewrite <- app_assoc; exact H1').
           destruct (IH (pre ++ [y]) r' b1 (acc ++ [x]) f) as (b' & E' & H' & HT');
             [lia|lia|exact H1''|congruence|].
           rewrite app_length in E'. simpl in E'. rewrite Nat.add_1_r in E'.
           destruct (skip_visit p r') as [vis keep]. cbn [fst snd] in *.
           exists b'. rewrite E'. split; [now rewrite <- app_assoc|].
           split; [now rewrite <- app_assoc in H'|congruence].
      * assert (H1'' : holds b ((pre ++ [x]) ++ r)) by (rewrite <- app_assoc; exact H).
        destruct (IH (pre ++ [x]) r b (acc ++ [x]) f) as (b' & E' & H' & HT');
          [lia|lia|exact H1''|exact HT|].
        cbn [bind].
        rewrite app_length in E'. simpl in E'. rewrite Nat.add_1_r in E'.
        destruct (skip_visit p r) as [vis keep]. cbn [fst snd] in *.
        exists b'. rewrite E'. split; [now rewrite <- app_assoc|].
        split; [now rewrite <- app_assoc in H'|congruence].
Qed.

Lemma foreach_remove_skips p b l :
  holds b l -> b_type b <> T_TUPLE ->
  exists b', foreach (remove_if p) (b_size b) b 0 [] = Ok (b', fst (skip_visit p l))
             /\ holds b' (snd (skip_visit p l)).
Proof.
  intros H HT.
  destruct (foreach_remove_gen p (length l) [] l b [] (b_size b)) as (b' & E & H' & _);
    auto; [rewrite (proj1 H); lia|].
  exists b'. auto.
Qed.

(* elements and copy *)
Lemma foreach_collect b l (f : nat) i acc :
  holds b l -> length l - i <= f ->
  foreach (fun b (_ : nat) v acc => Ok (b, acc ++ [v])) f b i acc
  = Ok (b, acc ++ skipn i l).
Proof.
  intros H. pose proof (proj1 H) as Hs.
  revert i acc; induction f as [|f IH]; intros i acc Hf.
  - simpl. destruct (Nat.ltb_spec i (b_size b)); [lia|].
    rewrite skipn_all2 by lia. now rewrite app_nil_r.
  - cbn [foreach]. destruct (Nat.ltb_spec i (b_size b)) as [Hi|Hi].
    + destruct (nth_error l i) as [v|] eqn:E.
      2:{ apply nth_error_None in E. lia. }
      rewrite (holds_get b l i v H E). cbn [bind].
      rewrite IH by lia. rewrite <- app_assoc. do 3 f_equal.
      clear -E. revert l E; induction i as [|i IH]; intros [|h t] E; try discriminate.
      * cbn in E. injection E as ->. reflexivity.
      * cbn [skipn]. exact (IH t E).
    + rewrite skipn_all2 by lia. now rewrite app_nil_r.
Qed.

Lemma elements_spec b l : holds b l -> elements b = Ok l.
Proof.
  intros H. unfold elements.
  rewrite (foreach_collect b l (b_size b) 0 []) by (auto; rewrite (proj1 H); lia).
  reflexivity.
Qed.

Lemma copy_spec q b l :
  holds b l -> 0 < q ->
  exists d, copy q b = Ok d /\ holds d l /\ b_type d = b_type b /\ cap d = length l.
Proof.
  intros H Hq. unfold copy. rewrite (elements_spec b l H). cbn [bind].
  destruct (append_all_spec l (fresh q) [] (fresh_holds q)) as (d & E & Hd & HTd & _).
  - discriminate.
  - unfold cap, fresh; cbn. rewrite repeat_length. exact Hq.
  - rewrite E. cbn [bind app] in *.
    pose proof (proj1 Hd) as Hsz.
    destruct (grow_holds d l (b_size d) Hd (Nat.le_refl _)) as [G1 G2].
    eexists; split; [reflexivity|].
    split; [split; [exact (proj1 G1)|exact (proj2 G1)]|].
    split; [reflexivity|]. unfold cap in *. cbn [b_cells] in *. lia.
Qed.

(* zero capacity *)
Lemma append_zero_cap b v :
  b_type b <> T_TUPLE -> cap b = 0 -> append b v = UB.
Proof.
  intros HT Hc. unfold append. rewrite Hc. cbn [Nat.leb Nat.mul].
  unfold grow. cbn [firstn app]. replace (0 - cap b) with 0 by lia.
  unfold wr. cbn. destruct (b_type b); try congruence; destruct (b_size b); reflexivity.
Qed.

(* append never UB otherwise: direct consequence of append_spec *)
Lemma append_in_bounds b l v :
  holds b l -> 0 < cap b -> append b v <> UB.
Proof.
  intros H Hc. destruct (b_type b) eqn:E.
  2:{ unfold append; rewrite E; discriminate. }
  all: destruct (append_spec b l v H) as (b' & -> & _); [congruence|exact Hc|discriminate].
Qed.

Lemma tuple_frozen b o :
  match o with OReserve _ => False | _ => True end -> step (tuple b) o = Exn.
Proof. destruct o; cbn; tauto. Qed.

Lemma tuple_holds b l : holds b l -> holds (tuple b) l.
Proof. intros [H1 H2]; split; auto. Qed.

(* Handle level. *)
Lemma happends_in_place h a b l vs :
  nth_error h a = Some (Some b) -> holds b l -> b_type b <> T_TUPLE -> 0 < cap b ->
  (forall x m, In (x, m) vs -> m = false) ->
  exists h' b', happends h a vs = Ok h' /\ nth_error h' a = Some (Some b')
                /\ holds b' (l ++ map fst vs).
Proof.
  revert h b l; induction vs as [|[v m] r IH]; intros h b l Hh H HT Hc Hm; cbn [happends].
  - exists h, b. rewrite app_nil_r. auto.
  - unfold happend. unfold hget. rewrite Hh. cbn [bind].
    assert (m = false) as -> by (eapply Hm; left; reflexivity).
    destruct (append_spec b l v H HT Hc) as (b1 & E1 & H1 & HT1 & Hc1).
    rewrite E1. cbn [bind].
    assert (Hlt : a < length h) by (apply nth_error_Some; congruence).
    assert (Hgo : exists h' b', happends (set_nth a (Some b1) h) a r = Ok h' /\ nth_error h' a = Some (Some b') /\ holds b' (l ++ map fst ((v, false) :: r))).
    { destruct (IH (set_nth a (Some b1) h) b1 (l ++ [v])) as (h' & b' & E' & Hn' & H'); auto.
      - apply set_nth_same; auto.
      - congruence.
      - intros x m Hin. eapply Hm. right; eauto.
      - exists h', b'. rewrite <- app_assoc in H'. auto. }
    destruct (b_type b); [|congruence| |];
      (destruct (Nat.leb (cap b) (b_size b)); exact Hgo).
Qed.

End P.

Arguments holds {A} _ _.
Arguments spec_of {A} _.
Arguments srun {A} _ _.
Arguments sstep {A} _ _.
Arguments skip_visit {A} _ _.
Arguments remove_if {A} _ _ _ _ _.
