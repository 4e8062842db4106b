From Verif Require Import Base SortModel.

(* ---- Specification ---- *)
Definition ordered {A} (cmp : A -> A -> Z) (l : list A) : Prop :=
  forall i j x y, i < j -> nth_error l i = Some x -> nth_error l j = Some y -> (cmp x y <= 0)%Z.

Definition preorder {A} (cmp : A -> A -> Z) : Prop :=
  (forall x y, (0 < cmp x y)%Z -> (cmp y x <= 0)%Z) /\
  (forall x y z, (cmp x y <= 0)%Z -> (cmp y z <= 0)%Z -> (cmp x z <= 0)%Z).

(* ---- Permutation ---- *)
Section S.
Context {A : Type}.
Variable cmp : A -> A -> Z.

Lemma set_nth_twice n (u v : A) l : set_nth n u (set_nth n v l) = set_nth n u l.
Proof. revert n; induction l; intros [|n]; simpl; auto. f_equal; auto. Qed.

Lemma perm_head_swap (l : list A) x j b :
  nth_error l j = Some b -> Permutation (x :: l) (b :: set_nth j x l).
Proof.
  revert j; induction l as [|h t IH]; intros [|j] H; simpl in *; try discriminate.
  - injection H as ->. apply perm_swap.
  - transitivity (h :: x :: t); [apply perm_swap|].
    transitivity (h :: b :: set_nth j x t); [constructor; auto|apply perm_swap].
Qed.

Lemma perm_swap_nth (l : list A) i j a b :
  i < j -> nth_error l i = Some a -> nth_error l j = Some b ->
  Permutation l (set_nth i b (set_nth j a l)).
Proof.
  revert i j; induction l as [|h t IH]; intros [|i] [|j] L H1 H2; simpl in *; try discriminate; try lia.
  - injection H1 as ->. now apply perm_head_swap.
  - constructor. apply IH; auto; lia.
Qed.

Lemma shift_loop_spec gap tmp : 1 <= gap -> forall fuel data k,
  k < fuel -> k < length data ->
  exists data' k', shift_loop cmp fuel data gap tmp k = Ok (data', k') /\
    k' < length data' /\ length data' = length data /\
    Permutation (set_nth k tmp data) (set_nth k' tmp data').
Proof.
  intros Hg. induction fuel as [|fuel IH]; intros data k Hf Hk; [lia|].
  cbn [shift_loop]. destruct (Nat.leb_spec gap k) as [L|L].
  2:{ exists data, k. auto. }
  destruct (nth_error data (k - gap)) as [c|] eqn:E; [|apply nth_error_None in E; lia].
  rewrite (rd_ok _ _ _ E). cbn [bind].
  destruct (cmp c tmp >? 0)%Z.
  2:{ exists data, k. auto. }
  rewrite wr_ok by auto. cbn [bind].
  destruct (IH (set_nth k c data) (k - gap)) as (d' & k' & -> & H1 & H2 & H3); try lia.
  { rewrite set_nth_length; lia. }
  exists d', k'. rewrite set_nth_length in H2. repeat split; auto.
  transitivity (set_nth (k - gap) tmp (set_nth k c data)); auto.
  replace (set_nth k c data) with (set_nth k c (set_nth k tmp data)) by apply set_nth_twice.
  apply perm_swap_nth; [lia| |].
  - rewrite set_nth_other by lia. auto.
  - rewrite set_nth_same by auto. auto.
Qed.

Lemma insert_at_spec data gap j : 1 <= gap -> j < length data ->
  exists d, insert_at cmp data gap j = Ok d /\ Permutation data d.
Proof.
  intros Hg Hj. unfold insert_at.
  destruct (nth_error data j) as [tmp|] eqn:E; [|apply nth_error_None in E; lia].
  rewrite (rd_ok _ _ _ E). cbn [bind].
  destruct (shift_loop_spec gap tmp Hg (S j) data j) as (d & k & -> & H1 & H2 & H3); auto.
  cbn [bind]. rewrite wr_ok by auto. eexists; split; [reflexivity|].
  rewrite set_nth_id in H3; auto.
Qed.

Lemma j_loop_spec gap : 1 <= gap -> forall fuel data j,
  length data < fuel + j ->
  exists d, j_loop cmp fuel data gap j = Ok d /\ Permutation data d.
Proof.
  intros Hg. induction fuel as [|fuel IH]; intros data j Hf.
  - simpl. destruct (Nat.ltb_spec j (length data)); [lia|]. exists data; auto.
  - cbn [j_loop]. destruct (Nat.ltb_spec j (length data)) as [L|L].
    + destruct (insert_at_spec data gap j Hg L) as (d & -> & P). cbn [bind].
      pose proof (Permutation_length P).
      destruct (IH d (j + gap)) as (d2 & -> & P2); [lia|].
      exists d2; split; auto. etransitivity; eauto.
    + exists data; auto.
Qed.

Lemma i_loop_spec gap : 1 <= gap -> forall m data i,
  exists d, i_loop cmp m data gap i = Ok d /\ Permutation data d.
Proof.
  intros Hg. induction m as [|m IH]; intros data i.
  - exists data; auto.
  - cbn [i_loop]. destruct (j_loop_spec gap Hg (S (length data)) data i) as (d & -> & P); [lia|].
    cbn [bind]. destruct (IH d (S i)) as (d2 & -> & P2). exists d2; split; auto.
    etransitivity; eauto.
Qed.

Lemma gap_loop_spec gs : Forall (fun g => 1 <= g) gs -> forall data,
  exists d, gap_loop cmp gs data = Ok d /\ Permutation data d.
Proof.
  induction 1 as [|g gs Hg Hgs IH]; intros data.
  - exists data; auto.
  - cbn [gap_loop]. destruct (Nat.ltb (Nat.div (length data) 2) g); auto.
    destruct (i_loop_spec g Hg g data 0) as (d & -> & P). cbn [bind].
    destruct (IH d) as (d2 & -> & P2). exists d2; split; auto. etransitivity; eauto.
Qed.

Lemma gaps_pos : Forall (fun g => 1 <= g) gaps.
Proof.
  assert (forallb (fun g => Nat.leb 1 g) gaps = true) by (vm_compute; reflexivity).
  apply Forall_forall. intros g Hg. rewrite forallb_forall in H. apply Nat.leb_le; auto.
Qed.

Lemma memsort_permutation data :
  exists d, memsort cmp data = Ok d /\ Permutation data d.
Proof. apply gap_loop_spec, gaps_pos. Qed.

(* ---- Order: only the final pass (gap 1) matters ---- *)
Hypothesis Hpre : preorder cmp.

(* state of the shifting loop for gap 1: data without position k is ordered up to j,
   tmp is below everything in (k, j] *)
Definition hole_ordered (data : list A) (tmp : A) (k j : nat) : Prop :=
  (forall a b x y, a < b <= j -> a <> k -> b <> k ->
     nth_error data a = Some x -> nth_error data b = Some y -> (cmp x y <= 0)%Z) /\
  (forall b y, k < b <= j -> nth_error data b = Some y -> (cmp tmp y <= 0)%Z).

Definition ordered_upto (data : list A) (j : nat) : Prop :=
  forall a b x y, a < b < j -> nth_error data a = Some x -> nth_error data b = Some y ->
    (cmp x y <= 0)%Z.

Lemma shift_one tmp : forall fuel data k j,
  k < fuel -> k <= j -> j < length data -> hole_ordered data tmp k j ->
  exists data' k', shift_loop cmp fuel data 1 tmp k = Ok (data', k') /\
    k' <= j /\ length data' = length data /\
    hole_ordered data' tmp k' j /\
    (forall a x, a < k' -> nth_error data' a = Some x -> (cmp x tmp <= 0)%Z).
Proof.
  destruct Hpre as [Htot Htr].
  induction fuel as [|fuel IH]; intros data k j Hf Hk Hj [H1 H2]; [lia|].
  cbn [shift_loop]. destruct (Nat.leb_spec 1 k) as [L|L].
  2:{ exists data, k. repeat split; auto. intros; lia. }
  destruct (nth_error data (k - 1)) as [c|] eqn:E; [|apply nth_error_None in E; lia].
  rewrite (rd_ok _ _ _ E). cbn [bind]. rewrite Z.gtb_ltb.
  destruct (Z.ltb_spec 0 (cmp c tmp)) as [C|C].
  - rewrite wr_ok by lia. cbn [bind].
    destruct (IH (set_nth k c data) (k - 1) j) as (d' & k' & -> & R); try lia.
    + rewrite set_nth_length; lia.
    + split.
      * intros a b x y Hab Ha Hb Hx Hy.
        destruct (Nat.eq_dec a k) as [->|Na].
        -- rewrite set_nth_same in Hx by lia. injection Hx as <-.
           rewrite set_nth_other in Hy by lia. apply (H1 (k - 1) b); auto; lia.
        -- rewrite set_nth_other in Hx by lia. destruct (Nat.eq_dec b k) as [->|Nb].
           ++ rewrite set_nth_same in Hy by lia. injection Hy as <-.
              apply (H1 a (k - 1)); auto; lia.
           ++ rewrite set_nth_other in Hy by lia. apply (H1 a b); auto; lia.
      * intros b y Hb Hy. destruct (Nat.eq_dec b k) as [->|Nb].
        -- rewrite set_nth_same in Hy by lia. injection Hy as <-. apply Htot; lia.
        -- rewrite set_nth_other in Hy by lia. apply (H2 b); auto; lia.
    + rewrite set_nth_length in R. exists d', k'. auto.
  - exists data, k. repeat split; auto.
    intros a x Ha Hx. destruct (Nat.eq_dec a (k - 1)) as [->|Na].
    + rewrite E in Hx. injection Hx as <-. auto.
    + apply Htr with c; auto. apply (H1 a (k - 1)); auto; lia.
Qed.

Lemma insert_one data j : j < length data -> ordered_upto data j ->
  exists d, insert_at cmp data 1 j = Ok d /\ length d = length data /\ ordered_upto d (S j).
Proof.
  intros Hj Ho. unfold insert_at.
  destruct (nth_error data j) as [tmp|] eqn:E; [|apply nth_error_None in E; lia].
  rewrite (rd_ok _ _ _ E). cbn [bind].
  destruct (shift_one tmp (S j) data j j) as (d & k & -> & Hk & Hl & [H1 H2] & H3); auto.
  { split; [|intros; lia]. intros a b x y Hab Ha Hb. apply Ho; lia. }
  cbn [bind]. rewrite wr_ok by lia. eexists; split; [reflexivity|].
  rewrite set_nth_length; split; auto.
  intros a b x y Hab Hx Hy.
  destruct (Nat.eq_dec a k) as [->|Na].
  - rewrite set_nth_same in Hx by lia. injection Hx as <-.
    rewrite set_nth_other in Hy by lia. apply (H2 b); auto; lia.
  - rewrite set_nth_other in Hx by lia. destruct (Nat.eq_dec b k) as [->|Nb].
    + rewrite set_nth_same in Hy by lia. injection Hy as <-. apply (H3 a); auto; lia.
    + rewrite set_nth_other in Hy by lia. apply (H1 a b); auto; lia.
Qed.

Lemma j_loop_one : forall fuel data j,
  j <= length data -> length data < fuel + j -> ordered_upto data j ->
  exists d, j_loop cmp fuel data 1 j = Ok d /\ ordered cmp d.
Proof.
  induction fuel as [|fuel IH]; intros data j Hj Hf Ho; [lia|].
  cbn [j_loop]. destruct (Nat.ltb_spec j (length data)) as [L|L].
  - destruct (insert_one data j L Ho) as (d & -> & Hl & Ho2). cbn [bind].
    apply IH; try lia. now rewrite Nat.add_1_r.
  - exists data; split; auto. intros a b x y Hab Hx Hy. apply (Ho a b); auto. split; auto.
    assert (b < length data) by (apply nth_error_Some; congruence). lia.
Qed.

Lemma gap_loop_app gs hs data :
  gap_loop cmp (gs ++ hs) data = (do d <- gap_loop cmp gs data; gap_loop cmp hs d).
Proof.
  revert data. induction gs as [|g gs IH]; intros data; auto.
  cbn [app gap_loop]. destruct (Nat.ltb (Nat.div (length data) 2) g); auto.
  destruct (i_loop cmp g data g 0); cbn [bind]; auto.
Qed.

Lemma final_pass_ordered data :
  exists d, gap_loop cmp [1] data = Ok d /\ ordered cmp d.
Proof.
  cbn [gap_loop]. destruct (Nat.ltb_spec (Nat.div (length data) 2) 1) as [L|L].
  - exists data; split; auto. intros i j x y Hij Hx Hy.
    assert (j < length data) by (apply nth_error_Some; congruence).
    exfalso. assert (length data < 2) by (zify; lia). lia.
  - cbn [i_loop]. destruct (j_loop_one (S (length data)) data 0) as (d & -> & Ho); try lia.
    { intros a b x y H; lia. }
    exists d. auto.
Qed.

Lemma memsort_ordered data d : memsort cmp data = Ok d -> ordered cmp d.
Proof.
  unfold memsort. change gaps with ([1750; 701; 301; 132; 57; 23; 10; 4] ++ [1]).
  rewrite gap_loop_app. intros H.
  destruct (gap_loop cmp [1750; 701; 301; 132; 57; 23; 10; 4] data) as [e| | |]; try discriminate.
  cbn [bind] in H. destruct (final_pass_ordered e) as (d' & E & Ho). rewrite E in H. injection H as <-. exact Ho.
Qed.
End S.

Lemma memsort_correct {A} (cmp : A -> A -> Z) data :
  preorder cmp ->
  exists d, memsort cmp data = Ok d /\ Permutation data d /\ ordered cmp d.
Proof.
  intros H. destruct (memsort_permutation cmp data) as (d & E & P).
  exists d. repeat split; auto. eapply memsort_ordered; eauto.
Qed.

Lemma memsort_short {A} (cmp : A -> A -> Z) data : length data < 2 -> memsort cmp data = Ok data.
Proof. destruct data as [|x [|y l]]; simpl; try lia; reflexivity. Qed.
