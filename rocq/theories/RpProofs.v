(* Proofs about RpModel.v *)
From Verif Require Import Base RpModel.
From Coq Require Import Permutation.
Local Open Scope Z_scope.

(* ---- specification ---- *)

(* largest size the library's own argument check would let through (rpmalloc.c 490) *)
Definition max_size : Z := 2 ^ 64 - 1 - 65536.

(* two blocks (pointer, size) have no byte in common; an empty block still counts as one byte *)
Definition bytes (size : Z) : Z := Z.max size 1.
Definition apart (e f : Z * Z) : Prop := fst e + bytes (snd e) <= fst f \/ fst f + bytes (snd f) <= fst e.

Definition pow2 (al : Z) : Prop := exists k, 0 <= k /\ al = 2 ^ k.

(* what any program can get to: [live] are the blocks it holds.  It only frees what it holds, itself or
   through another thread *)
Inductive reach : heap -> list (Z * Z) -> Prop :=
| reach_start : reach heap0 []
| reach_alloc h live size ad src h' p :
    reach h live -> 0 <= size <= max_size -> alloc h size ad src = (Some p, h') -> reach h' ((p, size) :: live)
| reach_alloc_none h live size ad src h' :
    reach h live -> 0 <= size <= max_size -> alloc h size ad src = (None, h') -> reach h' live
| reach_aligned h live al size ad src h' p :
    reach h live -> 0 <= size <= max_size -> pow2 al -> al <= 4096 ->
    aligned_alloc h al size ad src = (Some p, h') -> reach h' ((p, size) :: live)
| reach_aligned_none h live al size ad src h' :
    reach h live -> 0 <= size <= max_size -> pow2 al -> al <= 4096 ->
    aligned_alloc h al size ad src = (None, h') -> reach h' live
| reach_free h l1 p size l2 own :
    reach h (l1 ++ (p, size) :: l2) -> reach (free h own p) (l1 ++ l2)
| reach_realloc h l1 p old l2 m noise size ad src q h' m' :
    reach h (l1 ++ (p, old) :: l2) -> 0 <= size <= 2 ^ 62 -> old <= 2 ^ 43 ->
    realloc h m noise p size ad src = (Some q, h', m') -> reach h' ((q, size) :: l1 ++ l2)
| reach_realloc_none h l1 p old l2 m noise size ad src h' m' :
    reach h (l1 ++ (p, old) :: l2) -> 0 <= size <= 2 ^ 62 -> old <= 2 ^ 43 ->
    realloc h m noise p size ad src = (None, h', m') -> reach h' (l1 ++ (p, old) :: l2).

(* every block keeps its bytes *)
Definition kept (m m' : memory) (live : list (Z * Z)) : Prop :=
  forall p size k, In (p, size) live -> 0 <= k < size -> m' (p + k) = m (p + k).

(* ---- counting ---- *)

Definition occ (x : Z) (l : list Z) : nat := count_occ Z.eq_dec l x.
Lemma occ_nil x : occ x [] = 0%nat. Proof. reflexivity. Qed.
Lemma occ_cons x y l : occ x (y :: l) = ((if Z.eqb y x then 1 else 0) + occ x l)%nat.
Proof.
  unfold occ. cbn [count_occ]. destruct (Z.eq_dec y x) as [-> | N]; [rewrite Z.eqb_refl; reflexivity|].
  rewrite (proj2 (Z.eqb_neq y x) N). reflexivity.
Qed.
Lemma occ_app x a b : occ x (a ++ b) = (occ x a + occ x b)%nat.
Proof. unfold occ. apply count_occ_app. Qed.
Lemma occ_in x l : In x l <-> (occ x l > 0)%nat.
Proof. apply count_occ_In. Qed.
Lemma occ_notin x l : ~ In x l <-> occ x l = 0%nat.
Proof. apply count_occ_not_In. Qed.

(* runs of spans holding the span u *)
Fixpoint cnt (u : Z) (l : list (Z * Z)) : nat :=
  match l with
  | [] => 0
  | (i, n) :: r => ((if ((i <=? u) && (u <? i + n))%Z then 1 else 0) + cnt u r)%nat
  end.
Lemma cnt_app u a b : cnt u (a ++ b) = (cnt u a + cnt u b)%nat.
Proof. induction a as [|[i n] a IH]; cbn [cnt app]; [reflexivity|]. rewrite IH. lia. Qed.
Lemma cnt_in u i n l : In (i, n) l -> i <= u < i + n -> (cnt u l > 0)%nat.
Proof.
  induction l as [|[j m] l IH]; cbn [In cnt]; [tauto|].
  intros [E | H] R.
  - injection E as -> ->. destruct (i <=? u) eqn:E1; destruct (u <? i + n) eqn:E2; cbn; try lia.
  - specialize (IH H R). lia.
Qed.
Lemma cnt_two u i n j m l1 l2 l3 :
  i <= u < i + n -> j <= u < j + m -> (2 <= cnt u (l1 ++ (i, n) :: l2 ++ (j, m) :: l3))%nat.
Proof.
  intros H1 H2. rewrite cnt_app. cbn [cnt]. rewrite cnt_app. cbn [cnt].
  destruct (i <=? u) eqn:E1; destruct (u <? i + n) eqn:E2; destruct (j <=? u) eqn:E3; destruct (u <? j + m) eqn:E4; cbn; lia.
Qed.
Lemma cnt_drop_nth u l : forall k i n, nth_error l k = Some (i, n) ->
  cnt u l = ((if ((i <=? u) && (u <? i + n))%Z then 1 else 0) + cnt u (drop_nth l k))%nat.
Proof.
  induction l as [|[j m] l IH]; intros [|k] i n E; cbn [nth_error drop_nth cnt] in *; try discriminate.
  - injection E as -> ->. reflexivity.
  - rewrite (IH k i n E). lia.
Qed.
Lemma drop_nth_in {A} (x : A) l : forall k, In x (drop_nth l k) -> In x l.
Proof.
  induction l as [|a l IH]; intros [|k] H; cbn [drop_nth In] in *; auto.
  destruct H as [H | H]; auto. right. eauto.
Qed.

(* ---- the size classes ---- *)

Definition class_ok (c : size_class) : bool :=
  (16 <=? c_bs c) && (2 <=? c_cnt c) && (c_bs c * c_cnt c <=? SPAN - HEADER) && (c_bs c mod 16 =? 0)
  && ((c_bs c <? 2048) || (c_bs c mod 512 =? 0)).

Lemma table_ok : forallb class_ok table = true.
Proof. vm_compute. reflexivity. Qed.
Lemma table_len : length table = 126%nat.
Proof. vm_compute. reflexivity. Qed.

Lemma class_at_ok c : 0 <= c < CLASSES -> class_ok (class_at c) = true.
Proof.
  intros H. unfold class_at. unfold CLASSES in H.
  apply (proj1 (forallb_forall _ _) table_ok). apply nth_In. rewrite table_len. lia.
Qed.
Lemma class_facts c : 0 <= c < CLASSES ->
  16 <= c_bs (class_at c) /\ 2 <= c_cnt (class_at c) /\ c_bs (class_at c) * c_cnt (class_at c) <= SPAN - HEADER
  /\ c_bs (class_at c) mod 16 = 0.
Proof.
  intros H. pose proof (class_at_ok c H) as K. unfold class_ok in K.
  apply andb_prop in K; destruct K as [K _].
  apply andb_prop in K; destruct K as [K K4]. apply andb_prop in K; destruct K as [K K3].
  apply andb_prop in K; destruct K as [K1 K2].
  repeat split; lia.
Qed.

Definition small_ok (n : nat) : bool := c_bs (class_at (Z.of_nat n)) =? Z.max 16 (16 * Z.of_nat n).
Lemma small_all : forallb small_ok (seq 0 65) = true.
Proof. vm_compute. reflexivity. Qed.
Definition medium_ok (n : nat) : bool :=
  let c := c_idx (class_at (65 + Z.of_nat n)) in
  (0 <=? c) && (c <? CLASSES) && (1024 + 512 * (Z.of_nat n + 1) <=? c_bs (class_at c))
  && (c_bs (class_at c) mod 512 =? 0).
Lemma medium_all : forallb medium_ok (seq 0 61) = true.
Proof. vm_compute. reflexivity. Qed.

Lemma small_class_ok size : 0 <= size <= SMALL_LIMIT ->
  0 <= small_class size < CLASSES /\ size <= c_bs (class_at (small_class size))
  /\ c_bs (class_at (small_class size)) = Z.max 16 (16 * small_class size).
Proof.
  intros H. unfold small_class, SMALL_LIMIT, CLASSES in *. rewrite Z.shiftr_div_pow2 by lia.
  change (2 ^ 4) with 16.
  assert (R : 0 <= (size + 15) / 16 < 65) by (split; [apply Z.div_pos; lia | apply Z.div_lt_upper_bound; lia]).
  pose proof (Z.div_mod (size + 15) 16 ltac:(lia)) as D. pose proof (Z.mod_pos_bound (size + 15) 16 ltac:(lia)).
  set (c := (size + 15) / 16) in *.
  assert (E : small_ok (Z.to_nat c) = true).
  { apply (proj1 (forallb_forall _ _) small_all). apply in_seq. lia. }
  unfold small_ok in E. rewrite Z2Nat.id in E by lia.
  apply Z.eqb_eq in E. split; [lia|]. split; [rewrite E; lia | exact E].
Qed.

Lemma medium_class_ok size : SMALL_LIMIT < size <= MEDIUM_LIMIT ->
  0 <= medium_class size < CLASSES /\ size <= c_bs (class_at (medium_class size))
  /\ c_bs (class_at (medium_class size)) mod 512 = 0.
Proof.
  intros H. unfold medium_class, SMALL_LIMIT, MEDIUM_LIMIT in *. rewrite Z.shiftr_div_pow2 by lia.
  change (2 ^ 9) with 512. change (1024 + 1) with 1025.
  assert (R : 0 <= (size - 1025) / 512 < 61) by (split; [apply Z.div_pos; lia | apply Z.div_lt_upper_bound; lia]).
  pose proof (Z.div_mod (size - 1025) 512 ltac:(lia)) as D. pose proof (Z.mod_pos_bound (size - 1025) 512 ltac:(lia)).
  set (k := (size - 1025) / 512) in *.
  assert (E : medium_ok (Z.to_nat k) = true).
  { apply (proj1 (forallb_forall _ _) medium_all). apply in_seq. lia. }
  unfold medium_ok in E. rewrite Z2Nat.id in E by lia. cbv zeta in E.
  set (c := c_idx (class_at (65 + k))) in *.
  apply andb_prop in E; destruct E as [E E4]. apply andb_prop in E; destruct E as [E E3].
  apply andb_prop in E; destruct E as [E1 E2].
  split; [lia|]. split; lia.
Qed.

(* ---- setting up part of a free list ---- *)

Definition ar (start bs : Z) (n : nat) : list Z := map (fun k => start + Z.of_nat k * bs) (seq 0 n).

Lemma ar_S start bs n : ar start bs (S n) = start :: ar (start + bs) bs n.
Proof.
  unfold ar. cbn [seq map]. f_equal; [lia|]. rewrite <- seq_shift, map_map. apply map_ext. intros k. lia.
Qed.
Lemma ar_len start bs n : length (ar start bs n) = n.
Proof. unfold ar. rewrite map_length, seq_length. reflexivity. Qed.

Definition in_run (start bs n x : Z) : nat :=
  if (0 <=? x - start) && ((x - start) mod bs =? 0) && ((x - start) / bs <? n) then 1%nat else 0%nat.

Lemma in_run_iff start bs n x : 0 < bs -> 0 <= n ->
  (in_run start bs n x = 1%nat /\ exists k, 0 <= k < n /\ x = start + k * bs) \/
  (in_run start bs n x = 0%nat /\ forall k, 0 <= k < n -> x <> start + k * bs).
Proof.
  intros B N. unfold in_run.
  destruct (0 <=? x - start) eqn:E1; cbn [andb].
  2:{ right. split; [reflexivity|]. intros k K ->. nia. }
  destruct ((x - start) mod bs =? 0) eqn:E2; cbn [andb].
  2:{ right. split; [reflexivity|]. intros k K ->. replace (start + k * bs - start) with (k * bs) in E2 by lia.
      rewrite Z.mod_mul in E2 by lia. discriminate. }
  destruct ((x - start) / bs <? n) eqn:E3.
  - left. split; [reflexivity|]. exists ((x - start) / bs).
    pose proof (Z.div_pos (x - start) bs ltac:(lia) B). pose proof (Z.div_mod (x - start) bs ltac:(lia)). lia.
  - right. split; [reflexivity|]. intros k K ->. replace (start + k * bs - start) with (k * bs) in E3 by lia.
    rewrite Z.div_mul in E3 by lia. lia.
Qed.

Lemma occ_ar x bs : 0 < bs -> forall n start, occ x (ar start bs n) = in_run start bs (Z.of_nat n) x.
Proof.
  intros B n. induction n as [|n IH]; intros start.
  - cbn. destruct (in_run_iff start bs 0 x B ltac:(lia)) as [[_ [k [K _]]] | [E _]]; [lia | symmetry; exact E].
  - rewrite ar_S, occ_cons, IH.
    destruct (in_run_iff start bs (Z.of_nat (S n)) x B ltac:(lia)) as [[-> [k [K ->]]] | [-> F]];
    destruct (in_run_iff (start + bs) bs (Z.of_nat n) (start + k * bs) B ltac:(lia)) as [[E [m [M X]]] | [E F2]]
    || destruct (in_run_iff (start + bs) bs (Z.of_nat n) x B ltac:(lia)) as [[E [m [M X]]] | [E F2]]; rewrite E.
    + destruct (start =? start + k * bs) eqn:E3; [|reflexivity].
      assert (k * bs = 0) by lia. assert (k = 0) by nia. subst k. assert ((m + 1) * bs = 0) by lia. nia.
    + destruct (start =? start + k * bs) eqn:E3; [reflexivity|].
      exfalso. apply (F2 (k - 1)); [|lia]. assert (k <> 0) by (intros ->; lia). lia.
    + exfalso. apply (F (m + 1)); lia.
    + destruct (start =? x) eqn:E3; [|reflexivity]. exfalso. apply (F 0); lia.
Qed.

Lemma init_loop_ar bs bend : 0 < bs -> forall fuel next, exists m, init_loop fuel next bend bs = ar next bs m
  /\ (m = 0%nat \/ next + (Z.of_nat m - 1) * bs < bend).
Proof.
  intros B fuel. induction fuel as [|fuel IH]; intros next; cbn [init_loop].
  - exists 0%nat. auto.
  - destruct (next <? bend) eqn:E.
    + destruct (IH (next + bs)) as [m [Em Hm]]. exists (S m). rewrite ar_S, Em. split; [reflexivity|]. right.
      destruct Hm as [-> | Hm]; [lia|]. nia.
    + exists 0%nat. auto.
Qed.

Lemma partial_init_ar page start c bs : 0 < bs -> 1 <= c ->
  exists m, partial_init page start c bs = ar (start + bs) bs m /\ Z.of_nat m < c.
Proof.
  intros B C. unfold partial_init. destruct (1 <? c) eqn:E.
  2:{ exists 0%nat. split; [reflexivity | lia]. }
  cbv zeta.
  set (bend := if bs <? PAGE / 2 then if page + PAGE <? start + bs * c then page + PAGE else start + bs * c else start + bs * c).
  assert (Hb : bend <= start + bs * c).
  { unfold bend. destruct (bs <? PAGE / 2); [destruct (page + PAGE <? start + bs * c) eqn:E2|]; lia. }
  destruct (init_loop_ar bs bend B (Z.to_nat c) (start + bs + bs)) as [m [Em Hm]].
  exists (S m). rewrite ar_S, Em. split; [reflexivity|].
  destruct Hm as [-> | Hm]; [lia|]. nia.
Qed.

(* ---- the invariant ---- *)

(* a held block: what the program was given, and the block it lies in *)
Definition held := ((Z * Z) * Z)%type.
Definition blocks (G : list held) : list Z := map snd G.

Definition dlen (s : span) : Z := if sp_kind s =? K_LARGE then sp_n s else 1.
Definition dpieces (h : heap) : list (Z * Z) := map (fun i => (i, dlen (h_span h i))) (h_defer h).

(* blocks of a span that were set up so far *)
Definition isblk (s : span) (i x : Z) : nat := in_run (base i + HEADER) (sp_bs s) (sp_limit s) x.

Record span_inv (s : span) (i : Z) (hf : list Z) (hp : list Z) (G : list held) : Prop := {
  si_bs : sp_bs s = c_bs (class_at (sp_kind s));
  si_cnt : sp_cnt s = c_cnt (class_at (sp_kind s));
  si_limit : 1 <= sp_limit s <= sp_cnt s;
  si_used : sp_used s = sp_limit s - Z.of_nat (length (sp_free s));
  si_lsize : sp_lsize s = Z.of_nat (length (sp_defer s));
  si_occ : forall x, span_of x = i ->
    (occ x (sp_free s) + occ x hf + occ x (sp_defer s) + occ x (blocks G) = isblk s i x)%nat;
  si_in : forall x, In x (sp_free s) \/ In x (sp_defer s) -> span_of x = i;
  si_part : In i hp <-> full s = false }.

(* a run handed out whole holds exactly one block *)
Definition run_inv (i : Z) (G : list held) : Prop :=
  forall x, span_of x = i -> occ x (blocks G) = (if (x =? base i + HEADER)%Z then 1 else 0)%nat.

Definition piece_inv (h : heap) (G : list held) (i n : Z) : Prop :=
  let s := h_span h i in
  (0 <= sp_kind s < CLASSES /\ n = 1 /\ span_inv s i (h_free h (sp_kind s)) (h_part h (sp_kind s)) G) \/
  (sp_kind s = K_LARGE /\ sp_n s = n /\ run_inv i G) \/
  (sp_kind s = K_HUGE /\ run_inv i G).

(* a huge block: the page count in the header is right unless the block is beyond 16 TiB *)
Definition huge_ok (s : span) (n i p size : Z) : Prop :=
  exists pages, sp_n s = pages mod 2 ^ 32 /\ 0 <= pages /\ p + size <= base i + pages * PAGE /\
    pages * PAGE <= n * SPAN /\ (size <= 2 ^ 43 -> pages < 2 ^ 32).

Definition held_inv (h : heap) (A : list (Z * Z)) (e : held) : Prop :=
  let '(p, size, b) := e in
  let i := span_of b in
  let s := h_span h i in
  0 <= size /\ b <= p /\ span_of p = i /\
  exists n, In (i, n) A /\
  ((sp_kind s < CLASSES /\ p + bytes size <= b + sp_bs s /\ (p <> b -> sp_al s = true)) \/
   (CLASSES <= sp_kind s /\ b = base i + HEADER /\ p + bytes size <= base (i + n) /\
    (sp_kind s = K_HUGE -> huge_ok s n i p size))).

Record inv (h : heap) (A : list (Z * Z)) (G : list held) : Prop := {
  i_units : forall u, (cnt u (h_pool h) + cnt u (dpieces h) + cnt u A <= 1)%nat;
  i_range : forall i n, In (i, n) (h_pool h) \/ In (i, n) (dpieces h) \/ In (i, n) A -> 1 <= i /\ 1 <= n /\ i + n <= h_next h;
  i_dk : forall i, In i (h_defer h) -> sp_kind (h_span h i) < CLASSES \/ sp_kind (h_span h i) = K_LARGE \/ sp_kind (h_span h i) = K_HUGE;
  i_pieces : forall i n, In (i, n) A -> piece_inv h G i n;
  i_part : forall c i, In i (h_part h c) -> In (i, 1) A /\ sp_kind (h_span h i) = c /\ 0 <= c < CLASSES;
  i_pnd : forall c, NoDup (h_part h c);
  i_free : forall c x, In x (h_free h c) -> In (span_of x, 1) A /\ sp_kind (h_span h (span_of x)) = c /\ 0 <= c < CLASSES;
  i_held : forall e, In e G -> held_inv h A e;
  i_next : 1 <= h_next h }.

(* ---- geometry ---- *)

Lemma zupd_same {A} (f : Z -> A) k v : zupd f k v k = v.
Proof. unfold zupd. rewrite Z.eqb_refl. reflexivity. Qed.
Lemma zupd_other {A} (f : Z -> A) k v x : x <> k -> zupd f k v x = f x.
Proof. intros H. unfold zupd. rewrite (proj2 (Z.eqb_neq x k) H). reflexivity. Qed.

Lemma span_of_block i d : 0 <= d < SPAN -> span_of (base i + d) = i.
Proof.
  intros H. unfold span_of, base. rewrite (Z.mul_comm SPAN i), Z.div_add_l by (unfold SPAN; lia).
  rewrite Z.div_small by lia. lia.
Qed.
Lemma span_of_bounds x : base (span_of x) <= x < base (span_of x) + SPAN.
Proof.
  unfold span_of, base. pose proof (Z.div_mod x SPAN ltac:(unfold SPAN; lia)).
  pose proof (Z.mod_pos_bound x SPAN ltac:(unfold SPAN; lia)). lia.
Qed.

Lemma in_run_split st bs n m x : 0 < bs -> 0 <= n -> 0 <= m ->
  in_run st bs (n + m) x = (in_run st bs n x + in_run (st + n * bs) bs m x)%nat.
Proof.
  intros B N M.
  destruct (in_run_iff st bs n x B N) as [[E1 [k1 [K1 X1]]] | [E1 F1]];
  destruct (in_run_iff (st + n * bs) bs m x B M) as [[E2 [k2 [K2 X2]]] | [E2 F2]];
  destruct (in_run_iff st bs (n + m) x B ltac:(lia)) as [[E3 [k3 [K3 X3]]] | [E3 F3]]; rewrite E1, E2, E3; try reflexivity; exfalso.
  - assert (k1 = n + k2) by nia. lia.
  - assert (k1 = n + k2) by nia. lia.
  - apply (F3 k1); lia.
  - apply (F3 (n + k2)); lia.
  - destruct (Z.lt_ge_cases k3 n); [apply (F1 k3); lia | apply (F2 (k3 - n)); lia].
Qed.

Lemma isblk_le s i x : (isblk s i x <= 1)%nat.
Proof. unfold isblk, in_run. destruct (_ && _ && _); lia. Qed.

Lemma isblk_pos s i hf hp G x : 0 <= sp_kind s < CLASSES -> span_inv s i hf hp G -> isblk s i x <> 0%nat ->
  exists k, 0 <= k < sp_limit s /\ x = base i + HEADER + k * sp_bs s.
Proof.
  intros K I H. pose proof (class_facts _ K) as [B1 [B2 _]]. rewrite <- (si_bs _ _ _ _ _ I) in B1.
  pose proof (si_limit _ _ _ _ _ I). unfold isblk in H.
  destruct (in_run_iff (base i + HEADER) (sp_bs s) (sp_limit s) x ltac:(lia) ltac:(lia)) as [[_ F] | [E _]]; [exact F | congruence].
Qed.

Lemma block_span s i hf hp G k d : 0 <= sp_kind s < CLASSES -> span_inv s i hf hp G ->
  0 <= k < sp_cnt s -> 0 <= d < sp_bs s -> span_of (base i + HEADER + k * sp_bs s + d) = i.
Proof.
  intros K I Hk Hd. pose proof (class_facts _ K) as [B1 [B2 [B3 _]]].
  rewrite <- (si_bs _ _ _ _ _ I), <- (si_cnt _ _ _ _ _ I) in *.
  replace (base i + HEADER + k * sp_bs s + d) with (base i + (HEADER + k * sp_bs s + d)) by lia.
  apply span_of_block. unfold HEADER, SPAN in *. nia.
Qed.

(* ---- frames ---- *)

Lemma piece_frame h h' G G' i n :
  piece_inv h G i n -> h_span h' i = h_span h i ->
  (forall x, span_of x = i -> occ x (h_free h' (sp_kind (h_span h i))) = occ x (h_free h (sp_kind (h_span h i)))) ->
  (In i (h_part h' (sp_kind (h_span h i))) <-> In i (h_part h (sp_kind (h_span h i)))) ->
  (forall x, span_of x = i -> occ x (blocks G') = occ x (blocks G)) ->
  piece_inv h' G' i n.
Proof.
  intros P Es Ef Ep Eg. unfold piece_inv in *. cbv zeta in *. rewrite Es.
  destruct P as [[K [N I]] | [[K [N R]] | [K R]]].
  - left. split; [exact K|]. split; [exact N|]. destruct I as [a1 a2 a3 a4 a5 a6 a7 a8].
    constructor; auto.
    + intros x Hx. rewrite Ef, Eg by exact Hx. apply a6. exact Hx.
    + rewrite Ep. exact a8.
  - right. left. split; [exact K|]. split; [exact N|]. intros x Hx. rewrite Eg by exact Hx. apply R. exact Hx.
  - right. right. split; [exact K|]. intros x Hx. rewrite Eg by exact Hx. apply R. exact Hx.
Qed.

Lemma held_frame h h' (A A' : list (Z * Z)) e :
  held_inv h A e -> h_span h' (span_of (snd e)) = h_span h (span_of (snd e)) ->
  (forall n, In (span_of (snd e), n) A -> In (span_of (snd e), n) A') -> held_inv h' A' e.
Proof.
  destruct e as [[p size] b]. unfold held_inv. cbn [snd]. intros [H1 [H2 [H3 [n [H4 H5]]]]] Es HA.
  split; [exact H1|]. split; [exact H2|]. split; [exact H3|]. exists n. split; [apply HA; exact H4|].
  rewrite Es. exact H5.
Qed.

Lemma cnt_self u n l : In (u, n) l -> 1 <= n -> (cnt u l > 0)%nat.
Proof. intros H N. apply (cnt_in u u n l H). lia. Qed.

Lemma not_deferred h A G i n : inv h A G -> In (i, n) A -> ~ In i (h_defer h).
Proof.
  intros I HA HD. pose proof (i_units _ _ _ I i) as U.
  assert (HN : In (i, dlen (h_span h i)) (dpieces h)) by (apply (in_map (fun i => (i, dlen (h_span h i)))); exact HD).
  pose proof (i_range _ _ _ I i _ (or_intror (or_introl HN))).
  pose proof (i_range _ _ _ I i _ (or_intror (or_intror HA))).
  pose proof (cnt_self i _ _ HN ltac:(lia)). pose proof (cnt_self i _ _ HA ltac:(lia)). lia.
Qed.

Lemma dpieces_frame h h' : h_defer h' = h_defer h -> (forall i, In i (h_defer h) -> h_span h' i = h_span h i) -> dpieces h' = dpieces h.
Proof. intros E F. unfold dpieces. rewrite E. apply map_ext_in. intros i Hi. rewrite F by exact Hi. reflexivity. Qed.

Lemma piece_unique h A G i n m : inv h A G -> In (i, n) A -> In (i, m) A -> n = m.
Proof.
  intros I H1 H2. pose proof (i_units _ _ _ I i) as U.
  apply in_split in H1. destruct H1 as [l1 [l2 ->]].
  pose proof (i_range _ _ _ I i n) as R1. pose proof (i_range _ _ _ I i m) as R2.
  rewrite in_app_iff in *. cbn [In] in *.
  rewrite !cnt_app in U. cbn [cnt] in U.
  assert (1 <= n) by (apply R1; auto). assert (1 <= m) by (apply R2; tauto).
  destruct H2 as [H2 | [H2 | H2]].
  - pose proof (cnt_self i m l1 H2 ltac:(lia)). destruct (i <=? i) eqn:E1; destruct (i <? i + n) eqn:E2; cbn in U; lia.
  - congruence.
  - pose proof (cnt_self i m l2 H2 ltac:(lia)). destruct (i <=? i) eqn:E1; destruct (i <? i + n) eqn:E2; cbn in U; lia.
Qed.

(* nothing refers to a span that is not in use *)
Lemma absent_held h A G i x : inv h A G -> (forall n, ~ In (i, n) A) -> span_of x = i -> occ x (blocks G) = 0%nat.
Proof.
  intros I N E. apply occ_notin. intros H. apply in_map_iff in H. destruct H as [[[p size] b] [E2 H]]. cbn in E2. subst b.
  pose proof (i_held _ _ _ I _ H) as [_ [_ [_ [n [HA _]]]]]. rewrite E in HA. exact (N n HA).
Qed.
Lemma absent_free h A G i c x : inv h A G -> (forall n, ~ In (i, n) A) -> span_of x = i -> occ x (h_free h c) = 0%nat.
Proof.
  intros I N E. apply occ_notin. intros H. destruct (i_free _ _ _ I c x H) as [HA _]. rewrite E in HA. exact (N 1 HA).
Qed.
Lemma absent_part h A G i c : inv h A G -> (forall n, ~ In (i, n) A) -> ~ In i (h_part h c).
Proof. intros I N H. destruct (i_part _ _ _ I c i H) as [HA _]. exact (N 1 HA). Qed.

Lemma blocks_cons e G x : occ x (blocks (e :: G)) = ((if (snd e =? x)%Z then 1 else 0) + occ x (blocks G))%nat.
Proof. unfold blocks. cbn [map]. apply occ_cons. Qed.
Lemma blocks_mid G1 e G2 x : occ x (blocks (G1 ++ e :: G2)) = ((if (snd e =? x)%Z then 1 else 0) + occ x (blocks (G1 ++ G2)))%nat.
Proof. unfold blocks. rewrite !map_app. cbn [map]. rewrite !occ_app, occ_cons. lia. Qed.

(* ---- taking a block from the list of the class ---- *)

Lemma pop_inv h A G c b r size : inv h A G -> h_free h c = b :: r -> 0 <= size <= c_bs (class_at c) ->
  inv (hs_free h c r) A (((b, size), b) :: G).
Proof.
  intros I E S.
  destruct (i_free _ _ _ I c b ltac:(rewrite E; left; reflexivity)) as [HA [HK HC]].
  pose proof (class_facts c HC) as [B1 _].
  destruct I as [u rg dk pc pt pn fr hd nx]. constructor; auto.
  - intros i n Hin. pose proof (pc i n Hin) as P. unfold piece_inv in *. cbv zeta in *. cbn [h_span h_free h_part hs_free].
    destruct P as [[K [N I]] | [[K [N R]] | [K R]]].
    + left. split; [exact K|]. split; [exact N|]. destruct I as [a1 a2 a3 a4 a5 a6 a7 a8]. constructor; auto.
      intros x Hx. specialize (a6 x Hx). rewrite blocks_cons. cbn [snd].
      destruct (Z.eq_dec (sp_kind (h_span h i)) c) as [Ec | Ec].
      * rewrite Ec in *. rewrite zupd_same. rewrite E, occ_cons in a6. lia.
      * rewrite zupd_other by exact Ec.
        destruct (b =? x) eqn:Ex; [|lia]. exfalso. assert (b = x) by lia. subst x. rewrite Hx in HK. congruence.
    + right. left. split; [exact K|]. split; [exact N|]. intros x Hx. rewrite blocks_cons. cbn [snd].
      destruct (b =? x) eqn:Ex; [|rewrite R by exact Hx; reflexivity].
      exfalso. assert (b = x) by lia. subst x. rewrite Hx in HK. unfold K_LARGE, CLASSES in *. lia.
    + right. right. split; [exact K|]. intros x Hx. rewrite blocks_cons. cbn [snd].
      destruct (b =? x) eqn:Ex; [|rewrite R by exact Hx; reflexivity].
      exfalso. assert (b = x) by lia. subst x. rewrite Hx in HK. unfold K_HUGE, CLASSES in *. lia.
  - intros c' x. cbn [h_free hs_free h_span]. destruct (Z.eq_dec c' c) as [-> | N].
    + rewrite zupd_same. intros H. apply fr. rewrite E. right. exact H.
    + rewrite zupd_other by exact N. apply fr.
  - intros e [<- | He].
    + unfold held_inv. cbn [h_span hs_free]. split; [lia|]. split; [lia|]. split; [reflexivity|]. exists 1. split; [exact HA|].
      left. rewrite HK. split; [unfold CLASSES in *; lia|].
      pose proof (pc _ _ HA) as P. unfold piece_inv in P. cbv zeta in P. rewrite HK in P.
      destruct P as [[_ [_ P]] | [[P _] | [P _]]]; [|unfold K_LARGE, CLASSES in *; lia | unfold K_HUGE, CLASSES in *; lia].
      rewrite (si_bs _ _ _ _ _ P), HK. split; [unfold bytes; lia | congruence].
    + apply (held_frame h _ A); auto.
Qed.

(* ---- refilling the list of the class from a partial span ---- *)

Lemma use_partial_inv h A G c i rest b h' size :
  inv h A G -> h_free h c = [] -> h_part h c = i :: rest -> use_partial h c i = (b, h') ->
  0 <= size <= c_bs (class_at c) ->
  inv h' A (((b, size), b) :: G) /\ sp_kind (h_span h' (span_of b)) = c.
Proof.
  intros I E EP U Hs.
  destruct (i_part _ _ _ I c i ltac:(rewrite EP; left; reflexivity)) as [HA [HK HC]].
  pose proof (class_facts c HC) as [B1 [B2 [B3 _]]].
  pose proof (i_pieces _ _ _ I i 1 HA) as P. unfold piece_inv in P. cbv zeta in P. rewrite HK in P.
  destruct P as [[_ [_ P]] | [[P _] | [P _]]]; [|unfold K_LARGE, CLASSES in *; lia | unfold K_HUGE, CLASSES in *; lia].
  rewrite E in P. rewrite EP in P.
  assert (NF : full (h_span h i) = false) by (apply (si_part _ _ _ _ _ P); left; reflexivity).
  set (s := h_span h i) in *.
  assert (KK : 0 <= sp_kind s < CLASSES) by (rewrite HK; exact HC).
  pose proof (si_limit _ _ _ _ _ P) as L.
  assert (Ebs : sp_bs s = c_bs (class_at c)) by (rewrite (si_bs _ _ _ _ _ P), HK; reflexivity).
  assert (Ecnt : sp_cnt s = c_cnt (class_at c)) by (rewrite (si_cnt _ _ _ _ _ P), HK; reflexivity).
  assert (X : exists l lim,
    match sp_free s with
    | b :: r => (b, r, sp_limit s)
    | [] => let start := base i + HEADER + sp_limit s * sp_bs s in
            let l := partial_init (start / PAGE * PAGE) start (sp_cnt s - sp_limit s) (sp_bs s) in
            (start, l, sp_limit s + 1 + Z.of_nat (length l))
    end = (b, l, lim) /\ 1 <= lim <= sp_cnt s /\
    (forall x, (occ x (b :: l) + occ x (sp_defer s) + occ x (blocks G) = in_run (base i + HEADER) (sp_bs s) lim x)%nat \/ span_of x <> i) /\
    (forall x, In x (b :: l) -> span_of x = i)).
  { unfold use_partial in U. fold s in U.
    destruct (sp_free s) as [|b0 r] eqn:EF.
    - cbv zeta in U |- *. set (start := base i + HEADER + sp_limit s * sp_bs s) in *.
      assert (LT : sp_limit s < sp_cnt s).
      { unfold full in NF. rewrite EF in NF. cbn [is_nil andb] in NF. lia. }
      destruct (partial_init_ar (start / PAGE * PAGE) start (sp_cnt s - sp_limit s) (sp_bs s) ltac:(lia) ltac:(lia)) as [m [Em Hm]].
      rewrite Em in *. rewrite ar_len in *. injection U as Eb Eh. exists (ar (start + sp_bs s) (sp_bs s) m), (sp_limit s + 1 + Z.of_nat m).
      split; [rewrite Eb; reflexivity|]. split; [lia|].
      assert (Q : forall x, occ x (b :: ar (start + sp_bs s) (sp_bs s) m) = in_run start (sp_bs s) (Z.of_nat (S m)) x).
      { intros x. rewrite <- Eb, <- ar_S. apply occ_ar. lia. }
      split.
      + intros x. destruct (Z.eq_dec (span_of x) i) as [Ex | Ex]; [left|right; exact Ex].
        rewrite Q. pose proof (si_occ _ _ _ _ _ P x Ex) as O. rewrite EF in O. rewrite !occ_nil in O. unfold isblk in O.
        replace (sp_limit s + 1 + Z.of_nat m) with (sp_limit s + Z.of_nat (S m)) by lia.
        rewrite in_run_split by lia. fold start. lia.
      + intros x Hx. apply occ_in in Hx. rewrite Q in Hx.
        destruct (in_run_iff start (sp_bs s) (Z.of_nat (S m)) x ltac:(lia) ltac:(lia)) as [[_ [k [Kk ->]]] | [Z0 _]]; [|lia].
        unfold start. replace (base i + HEADER + sp_limit s * sp_bs s + k * sp_bs s) with (base i + HEADER + (sp_limit s + k) * sp_bs s + 0) by lia.
        apply (block_span s i [] (i :: rest) G (sp_limit s + k) 0 KK P); lia.
    - injection U as Eb Eh. subst b0. exists r, (sp_limit s). split; [reflexivity|]. split; [lia|]. split.
      + intros x. destruct (Z.eq_dec (span_of x) i) as [Ex | Ex]; [left|right; exact Ex].
        pose proof (si_occ _ _ _ _ _ P x Ex) as O. rewrite EF in O. rewrite occ_nil in O. unfold isblk in O. lia.
      + intros x Hx. apply (si_in _ _ _ _ _ P). left. rewrite EF. exact Hx. }
  destruct X as [l [lim [Em [HL [HO HI]]]]].
  unfold use_partial in U. cbv zeta in U, Em. fold s in U. rewrite Em in U.
  set (s1 := if is_nil (sp_defer s) then set_lists s [] lim lim (sp_lsize s) []
             else set_lists s (sp_defer s) lim (lim - sp_lsize s) 0 []) in *.
  cbv zeta in U.
  assert (F1 : sp_kind s1 = c /\ sp_al s1 = sp_al s /\ sp_bs s1 = sp_bs s /\ sp_cnt s1 = sp_cnt s /\ sp_limit s1 = lim /\
               sp_free s1 = sp_defer s /\ sp_defer s1 = [] /\ sp_lsize s1 = 0 /\ sp_used s1 = lim - Z.of_nat (length (sp_defer s))).
  { unfold s1. pose proof (si_lsize _ _ _ _ _ P) as LS. destruct (sp_defer s) as [|d ds]; cbn [is_nil set_lists sp_kind sp_al sp_bs sp_cnt sp_limit sp_free sp_defer sp_lsize sp_used].
    - cbn [length] in *. repeat split; auto; lia.
    - repeat split; auto; lia. }
  destruct F1 as [f1 [f2 [f3 [f4 [f5 [f6 [f7 [f8 f9]]]]]]]].
  assert (Hb : span_of b = i) by (apply HI; left; reflexivity).
  assert (ES : h_span h' = zupd (h_span h) i s1) by (injection U as <-; destruct (full s1); reflexivity).
  assert (EFR : h_free h' = zupd (h_free h) c l) by (injection U as <-; destruct (full s1); reflexivity).
  assert (EPT : h_part h' = h_part h /\ full s1 = false \/ h_part h' = zupd (h_part h) c rest /\ full s1 = true).
  { injection U as <-. destruct (full s1); [right|left]; (split; [|reflexivity]); [|reflexivity].
    cbn [h_part hs_part hs_free hs_span]. rewrite EP. reflexivity. }
  assert (EO : h_pool h' = h_pool h /\ h_defer h' = h_defer h /\ h_next h' = h_next h) by (injection U as <-; destruct (full s1); auto).
  destruct EO as [EO1 [EO2 EO3]].
  assert (ND : ~ In i (h_defer h)) by (apply (not_deferred h A G i 1 I HA)).
  assert (ED : dpieces h' = dpieces h).
  { apply dpieces_frame; [exact EO2|]. intros j Hj. rewrite ES. apply zupd_other. intros ->. contradiction. }
  clear U. split; [|rewrite Hb, ES, zupd_same; exact f1].
  destruct I as [u rg dk pc pt pn fr hd nx].
  assert (PIN : forall c' j, In j (h_part h' c') -> In j (h_part h c')).
  { intros c' j Hj. destruct EPT as [[EE _] | [EE _]]; rewrite EE in Hj; [exact Hj|].
    destruct (Z.eq_dec c' c) as [-> | N]; [rewrite zupd_same in Hj; rewrite EP; right; exact Hj | rewrite zupd_other in Hj by exact N; exact Hj]. }
  assert (NR : ~ In i rest) by (specialize (pn c); rewrite EP in pn; inversion pn; assumption).
  constructor.
  - rewrite EO1, ED. exact u.
  - rewrite EO1, EO3, ED. exact rg.
  - intros j Hj. rewrite EO2 in Hj. rewrite ES, zupd_other by (intros ->; contradiction). auto.
  - intros j n Hj. destruct (Z.eq_dec j i) as [-> | N].
    + assert (n = 1) by (apply (piece_unique h A G i n 1); [constructor; auto | exact Hj | exact HA]). subst n.
      left. rewrite ES, zupd_same, f1. split; [exact HC|]. split; [reflexivity|]. rewrite EFR, zupd_same.
      constructor.
      * rewrite f3, f1. exact Ebs.
      * rewrite f4, f1. exact Ecnt.
      * rewrite f4, f5. exact HL.
      * rewrite f5, f6, f9. reflexivity.
      * rewrite f7, f8. reflexivity.
      * intros x Hx. rewrite f6, f7, occ_nil, blocks_cons. cbn [snd]. unfold isblk. rewrite f3, f5.
        destruct (HO x) as [O | O]; [|congruence]. rewrite occ_cons in O. lia.
      * intros x. rewrite f6, f7. intros [Hx | []]. apply (si_in _ _ _ _ _ P). right. exact Hx.
      * destruct EPT as [[-> ->] | [-> ->]].
        -- rewrite EP. split; [reflexivity | intros _; left; reflexivity].
        -- rewrite zupd_same. split; [intros H; contradiction | discriminate].
    + apply (piece_frame h h' G); auto.
      * rewrite ES. apply zupd_other. exact N.
      * intros x Hx. rewrite EFR. destruct (Z.eq_dec (sp_kind (h_span h j)) c) as [-> | N2].
        -- rewrite zupd_same, E, occ_nil. apply occ_notin. intros Hin. apply N. rewrite <- Hx. apply HI. right. exact Hin.
        -- rewrite zupd_other by exact N2. reflexivity.
      * split; [apply PIN|]. intros Hj2. destruct EPT as [[-> _] | [-> _]]; [exact Hj2|].
        destruct (Z.eq_dec (sp_kind (h_span h j)) c) as [Ec | N2].
        -- rewrite Ec in *. rewrite zupd_same. rewrite EP in Hj2. destruct Hj2 as [? | ?]; [congruence | assumption].
        -- rewrite zupd_other by exact N2. exact Hj2.
      * intros x Hx. rewrite blocks_cons. cbn [snd]. destruct (b =? x) eqn:Ex; [|reflexivity]. assert (b = x) by lia. subst x. congruence.
  - intros c' j Hj. apply PIN in Hj. destruct (pt c' j Hj) as [H1 [H2 H3]]. split; [exact H1|]. split; [|exact H3].
    rewrite ES. destruct (Z.eq_dec j i) as [-> | N]; [rewrite zupd_same, f1; fold s in H2; congruence | rewrite zupd_other by exact N; exact H2].
  - intros c'. destruct EPT as [[-> _] | [-> _]]; [apply pn|].
    destruct (Z.eq_dec c' c) as [-> | N]; [rewrite zupd_same; specialize (pn c); rewrite EP in pn; inversion pn; assumption | rewrite zupd_other by exact N; apply pn].
  - intros c' x Hx. rewrite EFR in Hx. destruct (Z.eq_dec c' c) as [-> | N].
    + rewrite zupd_same in Hx. assert (Sx : span_of x = i) by (apply HI; right; exact Hx). rewrite Sx. split; [exact HA|].
      rewrite ES, zupd_same, f1. auto.
    + rewrite zupd_other in Hx by exact N. destruct (fr c' x Hx) as [H1 [H2 H3]]. split; [exact H1|]. split; [|exact H3].
      rewrite ES. destruct (Z.eq_dec (span_of x) i) as [Ei | N2]; [rewrite Ei in *; rewrite zupd_same, f1; fold s in H2; congruence | rewrite zupd_other by exact N2; exact H2].
  - intros e [<- | He].
    + unfold held_inv. rewrite Hb, ES, zupd_same, f1. split; [lia|]. split; [lia|]. split; [reflexivity|]. exists 1. split; [exact HA|].
      left. split; [lia|]. rewrite f3, Ebs. split; [unfold bytes; lia | congruence].
    + pose proof (hd e He) as H. destruct e as [[p sz] b']. unfold held_inv in *.
      destruct (Z.eq_dec (span_of b') i) as [Eb' | N].
      * rewrite Eb' in *. fold s in H. rewrite ES, zupd_same, f1, f2, f3. rewrite HK in H.
        destruct H as [H1 [H2 [H3 [n [H4 [H5 | [H5 _]]]]]]]; [|unfold CLASSES in *; lia].
        split; [exact H1|]. split; [exact H2|]. split; [exact H3|]. exists n. split; [exact H4|]. left. exact H5.
      * rewrite ES, zupd_other by exact N. exact H.
  - rewrite EO3. exact nx.
Qed.

(* ---- spans in and out of the pool ---- *)

Lemma adopted_cnt h u : forall l, (forall i, In i l -> sp_kind (h_span h i) < CLASSES \/ sp_kind (h_span h i) = K_LARGE \/ sp_kind (h_span h i) = K_HUGE) ->
  (cnt u (adopted (h_span h) l) <= cnt u (map (fun i => (i, dlen (h_span h i))) l))%nat.
Proof.
  induction l as [|i l IH]; intros D; cbn [adopted map cnt]; [lia|].
  specialize (IH (fun j Hj => D j (or_intror Hj))).
  specialize (D i (or_introl eq_refl)). unfold dlen in *.
  destruct (sp_kind (h_span h i) <? CLASSES) eqn:E1.
  - destruct (sp_kind (h_span h i) =? K_LARGE) eqn:E2; [unfold K_LARGE, CLASSES in *; lia|]. cbn [cnt]. lia.
  - destruct (sp_kind (h_span h i) =? K_HUGE) eqn:E2.
    + lia.
    + destruct (sp_kind (h_span h i) =? K_LARGE) eqn:E3; [cbn [cnt]; lia|]. exfalso. lia.
Qed.
Lemma adopted_in h i n : forall l, (forall i, In i l -> sp_kind (h_span h i) < CLASSES \/ sp_kind (h_span h i) = K_LARGE \/ sp_kind (h_span h i) = K_HUGE) ->
  In (i, n) (adopted (h_span h) l) -> In (i, n) (map (fun i => (i, dlen (h_span h i))) l).
Proof.
  induction l as [|j l IH]; intros D H; cbn [adopted map] in *; [exact H|].
  specialize (IH (fun j Hj => D j (or_intror Hj))).
  specialize (D j (or_introl eq_refl)). unfold dlen in *.
  destruct (sp_kind (h_span h j) <? CLASSES) eqn:E1.
  - destruct (sp_kind (h_span h j) =? K_LARGE) eqn:E2; [unfold K_LARGE, CLASSES in *; lia|].
    destruct H as [H | H]; [left; exact H | right; auto].
  - destruct (sp_kind (h_span h j) =? K_HUGE) eqn:E2; [right; auto|].
    destruct (sp_kind (h_span h j) =? K_LARGE) eqn:E3; [|exfalso; lia].
    destruct H as [H | H]; [left; exact H | right; auto].
Qed.

Lemma adopt_inv h A G : inv h A G -> inv (adopt h) A G.
Proof.
  intros [u rg dk pc pt pn fr hd nx]. unfold adopt. constructor; auto.
  - intros x. cbn [h_pool hs_defer hs_pool h_defer dpieces]. unfold dpieces. cbn [h_defer hs_defer map]. rewrite cnt_app. cbn [cnt].
    pose proof (adopted_cnt h x (h_defer h) dk). specialize (u x). unfold dpieces in u. lia.
  - intros i n. cbn [h_pool hs_defer hs_pool h_next]. unfold dpieces. cbn [h_defer hs_defer map In]. rewrite in_app_iff.
    intros [[H | H] | [[] | H]]; apply rg; auto. right. left. apply adopted_in; assumption.
  - intros i [].
Qed.

Lemma map_spans_inv h A G n extra i m h' : inv h A G -> 1 <= n -> map_spans h n extra = (i, m, h') ->
  inv h' A G /\ (forall u, (cnt u (h_pool h') + cnt u (dpieces h') + cnt u A + (if ((i <=? u) && (u <? i + m))%Z then 1 else 0) <= 1)%nat)
  /\ m = n /\ 1 <= i /\ i + m <= h_next h'.
Proof.
  intros I N E. unfold map_spans in E. cbv zeta in E. injection E as <- <- <-.
  assert (Z0 : forall u, h_next h <= u -> (cnt u (h_pool h) + cnt u (dpieces h) + cnt u A = 0)%nat).
  { intros u Hu.
    assert (Q : forall l, (forall i n, In (i, n) l -> i + n <= h_next h) -> cnt u l = 0%nat).
    { induction l as [|[i k] l IH]; intros F; cbn [cnt]; [reflexivity|].
      rewrite IH by (intros; apply F; right; assumption). specialize (F i k (or_introl eq_refl)).
      destruct (i <=? u) eqn:E1; destruct (u <? i + k) eqn:E2; cbn; lia. }
    rewrite !Q; try reflexivity; intros j k Hj; apply (i_range _ _ _ I j k); auto. }
  destruct I as [u rg dk pc pt pn fr hd nx].
  assert (EC : forall x, (cnt x (if (0 <? extra)%Z then ((h_next h + n)%Z, extra) :: h_pool h else h_pool h) =
     (if ((h_next h + n <=? x) && (x <? h_next h + n + Z.max 0 extra))%Z then 1 else 0) + cnt x (h_pool h))%nat).
  { intros x. destruct (0 <? extra) eqn:Ex; cbn [cnt].
    - replace (Z.max 0 extra) with extra by lia. reflexivity.
    - destruct (h_next h + n <=? x) eqn:E1; destruct (x <? h_next h + n + Z.max 0 extra) eqn:E2; cbn; lia. }
  split.
  - constructor; auto.
    + intros x. cbn [h_pool hs_pool]. unfold dpieces. cbn [h_defer hs_pool hs_next h_span]. rewrite EC.
      specialize (u x). unfold dpieces in *.
      destruct (h_next h + n <=? x) eqn:E1; destruct (x <? h_next h + n + Z.max 0 extra) eqn:E2; cbn; try lia.
      specialize (Z0 x ltac:(lia)). lia.
    + intros i k. cbn [h_pool hs_pool h_next hs_next]. unfold dpieces. cbn [h_defer hs_pool hs_next h_span].
      intros H. assert (W : (i = h_next h + n /\ k = extra /\ 0 < extra) \/ (In (i, k) (h_pool h) \/ In (i, k) (dpieces h) \/ In (i, k) A)).
      { destruct H as [H | H]; [|right; right; exact H]. destruct (0 <? extra) eqn:Ex; [|right; left; exact H].
        destruct H as [H | H]; [left; injection H as <- <-; lia | right; left; exact H]. }
      destruct W as [W | W]; [lia|]. specialize (rg i k W). lia.
    + cbn [h_next hs_pool hs_next]. lia.
  - split; [|cbn [h_next hs_pool hs_next]; lia].
    intros x. cbn [h_pool hs_pool]. unfold dpieces. cbn [h_defer hs_pool hs_next h_span]. rewrite EC.
    specialize (u x). unfold dpieces in *. specialize (Z0 x).
    destruct (h_next h <=? x) eqn:E0; destruct (x <? h_next h + n) eqn:E3;
    destruct (h_next h + n <=? x) eqn:E1; destruct (x <? h_next h + n + Z.max 0 extra) eqn:E2; cbn; try lia.
Qed.

Lemma take_inv h A G n src i m h' : inv h A G -> 1 <= n -> take_spans h n src = Some (i, m, h') ->
  inv h' A G /\ (forall u, (cnt u (h_pool h') + cnt u (dpieces h') + cnt u A + (if ((i <=? u) && (u <? i + m))%Z then 1 else 0) <= 1)%nat)
  /\ n <= m /\ (n = 1 -> m = 1) /\ 1 <= i /\ i + m <= h_next h'.
Proof.
  intros I N E. destruct src as [k cut|extra|]; cbn [take_spans] in E; [| |discriminate].
  2:{ assert (E' : map_spans h n extra = (i, m, h')) by congruence. destruct (map_spans_inv h A G n extra i m h' I N E') as [H1 [H2 [H3 H4]]].
      split; [exact H1|]. split; [exact H2|]. lia. }
  destruct (nth_error (h_pool h) k) as [[i0 m0]|] eqn:EN.
  2:{ assert (E' : map_spans h n 0 = (i, m, h')) by congruence. destruct (map_spans_inv h A G n 0 i m h' I N E') as [H1 [H2 [H3 H4]]].
      split; [exact H1|]. split; [exact H2|]. lia. }
  destruct (m0 <? n) eqn:EL.
  { assert (E' : map_spans h n 0 = (i, m, h')) by congruence. destruct (map_spans_inv h A G n 0 i m h' I N E') as [H1 [H2 [H3 H4]]].
    split; [exact H1|]. split; [exact H2|]. lia. }
  assert (R0 : 1 <= i0 /\ 1 <= m0 /\ i0 + m0 <= h_next h) by (apply (i_range _ _ _ I); left; eapply nth_error_In; exact EN).
  destruct I as [u rg dk pc pt pn fr hd nx].
  assert (C0 := fun x => cnt_drop_nth x (h_pool h) k i0 m0 EN).
  destruct ((cut || (n =? 1)) && (n <? m0)) eqn:EC; injection E as <- <- <-.
  - assert (NM : n < m0) by lia. split.
    + constructor; auto.
      * intros x. cbn [h_pool hs_pool cnt]. unfold dpieces. cbn [h_defer hs_pool h_span]. specialize (u x). unfold dpieces in u.
        rewrite C0 in u. destruct (i0 <=? x) eqn:E1; destruct (x <? i0 + m0) eqn:E2; destruct (i0 + n <=? x) eqn:E3; destruct (x <? i0 + n + (m0 - n)) eqn:E4; cbn in *; lia.
      * intros i k0. cbn [h_pool hs_pool h_next]. unfold dpieces. cbn [h_defer hs_pool h_span].
        intros [[H | H] | H]; [injection H as <- <-; lia | apply rg; left; eapply drop_nth_in; exact H | apply rg; right; exact H].
    + split; [|cbn [h_next hs_pool]; lia].
      intros x. cbn [h_pool hs_pool cnt]. unfold dpieces. cbn [h_defer hs_pool h_span]. specialize (u x). unfold dpieces in u.
      rewrite C0 in u. destruct (i0 <=? x) eqn:E1; destruct (x <? i0 + m0) eqn:E2; destruct (i0 + n <=? x) eqn:E3; destruct (x <? i0 + n + (m0 - n)) eqn:E4; destruct (x <? i0 + n) eqn:E5; cbn in *; lia.
  - split.
    + constructor; auto.
      * intros x. cbn [h_pool hs_pool cnt]. unfold dpieces. cbn [h_defer hs_pool h_span]. specialize (u x). unfold dpieces in u.
        rewrite C0 in u. lia.
      * intros i k0. cbn [h_pool hs_pool h_next]. unfold dpieces. cbn [h_defer hs_pool h_span].
        intros [H | H]; [apply rg; left; eapply drop_nth_in; exact H | apply rg; right; exact H].
    + split; [|cbn [h_next hs_pool]; split; [lia | split; [intros ->; destruct cut; cbn in EC; lia | lia]]].
      intros x. cbn [h_pool hs_pool cnt]. unfold dpieces. cbn [h_defer hs_pool h_span]. specialize (u x). unfold dpieces in u.
      rewrite C0 in u. lia.
Qed.

(* a span just taken is nobody's *)
Lemma taken_absent h A i m : 1 <= m ->
  (forall u, (cnt u (h_pool h) + cnt u (dpieces h) + cnt u A + (if ((i <=? u) && (u <? i + m))%Z then 1 else 0) <= 1)%nat) ->
  (forall j n, In (j, n) (h_pool h) \/ In (j, n) (dpieces h) \/ In (j, n) A -> 1 <= j /\ 1 <= n /\ j + n <= h_next h) ->
  (forall n, ~ In (i, n) A) /\ ~ In i (h_defer h).
Proof.
  intros M U R. assert (C : ((if ((i <=? i) && (i <? i + m))%Z then 1 else 0) = 1)%nat).
  { destruct (i <=? i) eqn:E1; destruct (i <? i + m) eqn:E2; cbn; lia. }
  specialize (U i). rewrite C in U. split.
  - intros n H. pose proof (R i n (or_intror (or_intror H))). pose proof (cnt_self i n A H ltac:(lia)). lia.
  - intros H. assert (HN : In (i, dlen (h_span h i)) (dpieces h)) by (apply (in_map (fun i => (i, dlen (h_span h i)))); exact H).
    pose proof (R i _ (or_intror (or_introl HN))). pose proof (cnt_self i _ _ HN ltac:(lia)). lia.
Qed.

(* putting a new piece in use: everything else keeps its invariant *)
Lemma add_piece h h' A G i m s' e :
  inv h A G -> 1 <= m -> 1 <= i -> i + m <= h_next h ->
  (forall u, (cnt u (h_pool h) + cnt u (dpieces h) + cnt u A + (if ((i <=? u) && (u <? i + m))%Z then 1 else 0) <= 1)%nat) ->
  h_span h' = zupd (h_span h) i s' -> h_pool h' = h_pool h -> h_defer h' = h_defer h -> h_next h' = h_next h ->
  span_of (snd e) = i ->
  (forall c x, In x (h_free h' c) -> (In x (h_free h c) /\ span_of x <> i) \/ (m = 1 /\ span_of x = i /\ sp_kind s' = c /\ 0 <= c < CLASSES)) ->
  (forall c x, span_of x <> i -> sp_kind (h_span h (span_of x)) = c -> occ x (h_free h' c) = occ x (h_free h c)) ->
  (forall c j, j <> i -> (In j (h_part h' c) <-> In j (h_part h c))) ->
  (forall c, In i (h_part h' c) -> m = 1 /\ sp_kind s' = c /\ 0 <= c < CLASSES) ->
  (forall c, NoDup (h_part h' c)) ->
  piece_inv h' (e :: G) i m ->
  held_inv h' ((i, m) :: A) e ->
  inv h' ((i, m) :: A) (e :: G).
Proof.
  intros I M1 I1 R1 U ES EP ED EN Eb HF HFO HPO HPI PND PI HE.
  destruct (taken_absent h A i m M1 U (i_range _ _ _ I)) as [NA NDf].
  assert (EDP : dpieces h' = dpieces h).
  { apply dpieces_frame; [exact ED|]. intros j Hj. rewrite ES. apply zupd_other. intros ->. contradiction. }
  assert (AB := fun x H => absent_held h A G i x I NA H).
  destruct I as [u rg dk pc pt pn fr hd nx]. constructor.
  - intros x. rewrite EP, EDP. cbn [cnt]. specialize (U x). lia.
  - intros j n. rewrite EP, EDP, EN. cbn [In]. intros [H | [H | [H | H]]]; try (apply rg; tauto). injection H as <- <-. lia.
  - intros j Hj. rewrite ED in Hj. rewrite ES, zupd_other by (intros ->; contradiction). auto.
  - intros j n [H | H]; [injection H as <- <-; exact PI|].
    assert (N : j <> i) by (intros ->; apply (NA n H)).
    apply (piece_frame h h' G); auto.
    + rewrite ES. apply zupd_other. exact N.
    + intros x Hx. apply HFO; [congruence | rewrite Hx; reflexivity].
    + intros x Hx. rewrite blocks_cons. destruct (snd e =? x) eqn:Ex; [|reflexivity]. assert (snd e = x) by lia. congruence.
  - intros c j Hj. destruct (Z.eq_dec j i) as [-> | N].
    + destruct (HPI c Hj) as [-> [K C]]. split; [left; reflexivity|]. rewrite ES, zupd_same. auto.
    + apply HPO in Hj; [|exact N]. destruct (pt c j Hj) as [H1 [H2 H3]]. split; [right; exact H1|]. rewrite ES, zupd_other by exact N. auto.
  - exact PND.
  - intros c x Hx. destruct (HF c x Hx) as [[H Nx] | [-> [Hx2 [K C]]]].
    + destruct (fr c x H) as [H1 [H2 H3]]. split; [right; exact H1|]. rewrite ES, zupd_other by exact Nx. auto.
    + rewrite Hx2. split; [left; reflexivity|]. rewrite ES, zupd_same. auto.
  - intros e' [<- | He]; [exact HE|].
    apply (held_frame h h' A); [auto | |intros n; cbn [In]; auto].
    rewrite ES. apply zupd_other. intros Q. pose proof (hd e' He) as HH. destruct e' as [[p sz] b]. cbn [snd] in Q. destruct HH as [_ [_ [_ [n [HH _]]]]].
    rewrite Q in HH. exact (NA n HH).
  - rewrite EN. exact nx.
Qed.

Lemma init_new_inv h A G c i b h' size :
  inv h A G -> 1 <= i -> i + 1 <= h_next h ->
  (forall u, (cnt u (h_pool h) + cnt u (dpieces h) + cnt u A + (if ((i <=? u) && (u <? i + 1))%Z then 1 else 0) <= 1)%nat) ->
  0 <= c < CLASSES -> h_free h c = [] -> h_part h c = [] -> span_init_new h c i = (b, h') -> 0 <= size <= c_bs (class_at c) ->
  inv h' ((i, 1) :: A) (((b, size), b) :: G).
Proof.
  intros I I1 R1 U HC E EP X Hs.
  destruct (taken_absent h A i 1 ltac:(lia) U (i_range _ _ _ I)) as [NA NDf].
  pose proof (class_facts c HC) as [B1 [B2 [B3 _]]].
  unfold span_init_new in X. cbv zeta in X.
  set (bs := c_bs (class_at c)) in *. set (k := c_cnt (class_at c)) in *. set (start := base i + HEADER) in *.
  destruct (partial_init_ar (base i) start k bs ltac:(lia) ltac:(lia)) as [m [Em Hm]].
  rewrite Em, ar_len in X. set (l := ar (start + bs) bs m) in *.
  set (lim := 1 + Z.of_nat m) in *.
  set (s' := mkspan c false bs k [] lim (if lim <? k then lim else k) 0 [] 1) in *.
  injection X as Eb Eh.
  assert (ES : h_span h' = zupd (h_span h) i s') by (rewrite <- Eh; destruct (lim <? k); reflexivity).
  assert (EF : h_free h' = zupd (h_free h) c l) by (rewrite <- Eh; destruct (lim <? k); reflexivity).
  assert (EPT : h_part h' = (if lim <? k then zupd (h_part h) c [i] else h_part h)).
  { rewrite <- Eh. destruct (lim <? k); [|reflexivity]. cbn [h_part hs_part hs_free hs_span]. rewrite EP. reflexivity. }
  assert (Q : forall x, occ x (b :: l) = in_run start bs lim x).
  { intros x. unfold l. rewrite <- Eb, <- ar_S, occ_ar by lia. f_equal. unfold lim. lia. }
  assert (QI : forall x, In x (b :: l) -> span_of x = i).
  { intros x Hx. apply occ_in in Hx. rewrite Q in Hx.
    destruct (in_run_iff start bs lim x ltac:(lia) ltac:(unfold lim; lia)) as [[_ [j [Hj ->]]] | [Z0 _]]; [|lia].
    unfold start. replace (base i + HEADER + j * bs) with (base i + (HEADER + j * bs)) by lia.
    apply span_of_block. unfold HEADER, SPAN, lim in *. nia. }
  assert (Sb : span_of b = i) by (apply QI; left; reflexivity).
  assert (PF : forall j, j <> i -> forall c', In j (h_part h' c') <-> In j (h_part h c')).
  { intros j N c'. rewrite EPT. destruct (lim <? k); [|tauto].
    destruct (Z.eq_dec c' c) as [-> | N2]; [|rewrite zupd_other by exact N2; tauto].
    rewrite zupd_same, EP. cbn [In]. split; [intros [H | []]; congruence | tauto]. }
  apply (add_piece h h' A G i 1 s'); auto; try lia.
  - rewrite <- Eh. destruct (lim <? k); reflexivity.
  - rewrite <- Eh. destruct (lim <? k); reflexivity.
  - rewrite <- Eh. destruct (lim <? k); reflexivity.
  - intros c' x. rewrite EF. destruct (Z.eq_dec c' c) as [-> | N].
    + rewrite zupd_same. intros Hx. right. split; [reflexivity|]. split; [apply QI; right; exact Hx|]. split; [reflexivity | exact HC].
    + rewrite zupd_other by exact N. intros Hx. left. split; [exact Hx|]. intros Hi.
      destruct (i_free _ _ _ I c' x Hx) as [H1 _]. rewrite Hi in H1. exact (NA 1 H1).
  - intros c' x Nx _. rewrite EF. destruct (Z.eq_dec c' c) as [-> | N]; [|rewrite zupd_other by exact N; reflexivity].
    rewrite zupd_same, E, occ_nil. apply occ_notin. intros H. apply Nx, QI. right. exact H.
  - intros c'. rewrite EPT. intros H. split; [reflexivity|]. destruct (lim <? k).
    + destruct (Z.eq_dec c' c) as [-> | N]; [split; [reflexivity | exact HC]|]. rewrite zupd_other in H by exact N.
      exfalso. exact (absent_part h A G i c' I NA H).
    + exfalso. exact (absent_part h A G i c' I NA H).
  - intros c'. rewrite EPT. pose proof (i_pnd _ _ _ I c') as PN. destruct (lim <? k); [|exact PN].
    destruct (Z.eq_dec c' c) as [-> | N]; [rewrite zupd_same; repeat constructor; intros [] | rewrite zupd_other by exact N; exact PN].
  - left. rewrite ES, zupd_same. cbn [sp_kind s']. split; [exact HC|]. split; [reflexivity|]. rewrite EF, zupd_same.
    constructor; try reflexivity.
    + cbn [sp_limit sp_cnt s']. unfold lim. lia.
    + cbn [sp_used sp_limit sp_free s' length]. destruct (lim <? k) eqn:EL; unfold lim in *; lia.
    + intros x Hx. cbn [sp_free sp_defer s']. rewrite blocks_cons. cbn [snd]. rewrite !occ_nil, (absent_held h A G i x I NA Hx).
      unfold isblk. cbn [sp_bs sp_limit s']. fold start. rewrite <- Q, occ_cons. lia.
    + intros x [[] | []].
    + rewrite EPT. unfold full. cbn [sp_free sp_cnt sp_limit s' is_nil andb]. destruct (lim <? k) eqn:EL.
      * rewrite zupd_same. split; [intros _; lia | intros _; left; reflexivity].
      * split; [intros H; exfalso; exact (absent_part h A G i c I NA H) | intros H; lia].
  - unfold held_inv. rewrite Sb. rewrite ES, zupd_same. cbn [sp_kind sp_bs s'].
    split; [lia|]. split; [lia|]. split; [reflexivity|]. exists 1. split; [left; reflexivity|].
    left. split; [lia|]. split; [unfold bytes; fold bs; lia | congruence].
Qed.

(* ---- allocation ---- *)

Lemma land_mask x k : 0 <= k -> Z.land x (2 ^ k - 1) = x mod 2 ^ k.
Proof. intros H. rewrite <- Z.land_ones by exact H. rewrite Z.ones_equiv. reflexivity. Qed.

Lemma adopt_same h c : h_free (adopt h) c = h_free h c /\ h_part (adopt h) c = h_part h c.
Proof. split; reflexivity. Qed.

Lemma take_same h n src i m h' c : take_spans h n src = Some (i, m, h') ->
  h_free h' c = h_free h c /\ h_part h' c = h_part h c.
Proof.
  destruct src as [k cut|extra|]; cbn [take_spans]; [| |discriminate].
  - destruct (nth_error (h_pool h) k) as [[i0 m0]|].
    + destruct (m0 <? n); [|destruct ((cut || (n =? 1)) && (n <? m0))]; intros E; injection E as <- <- <-; split; reflexivity.
    + intros E. injection E as <- <- <-. split; reflexivity.
  - intros E. injection E as <- <- <-. split; reflexivity.
Qed.

Lemma alloc_class_inv h A G c ad src r h' size :
  inv h A G -> 0 <= c < CLASSES -> 0 <= size <= c_bs (class_at c) -> alloc_class h c ad src = (r, h') ->
  match r with
  | None => inv h' A G
  | Some p => exists A', inv h' A' (((p, size), p) :: G) /\ sp_kind (h_span h' (span_of p)) = c
  end.
Proof.
  intros I HC Hs X. unfold alloc_class in X.
  destruct (h_free h c) as [|b r0] eqn:EF.
  - destruct (h_part h c) as [|i rest] eqn:EP.
    + cbv zeta in X. set (h1 := if ad then adopt h else h) in *.
      assert (I1 : inv h1 A G) by (unfold h1; destruct ad; [apply adopt_inv; exact I | exact I]).
      assert (E1 : h_free h1 c = [] /\ h_part h1 c = []) by (unfold h1; destruct ad; [rewrite !(proj1 (adopt_same h c)), !(proj2 (adopt_same h c))|]; auto).
      destruct (take_spans h1 1 src) as [[[i m] h2]|] eqn:ET.
      * destruct (take_inv h1 A G 1 src i m h2 I1 ltac:(lia) ET) as [I2 [U [M1 [M2 [R1 R2]]]]].
        assert (m = 1) by auto. subst m.
        destruct (take_same h1 1 src i 1 h2 c ET) as [T1 T2]. rewrite (proj1 E1) in T1. rewrite (proj2 E1) in T2.
        destruct (span_init_new h2 c i) as [b h3] eqn:EI. injection X as <- <-.
        pose proof (init_new_inv h2 A G c i b h3 size I2 R1 R2 U HC T1 T2 EI Hs) as I3.
        exists ((i, 1) :: A). split; [exact I3|].
        unfold span_init_new in EI. cbv zeta in EI. injection EI as <- <-.
        unfold HEADER. rewrite span_of_block by (unfold SPAN; lia).
        match goal with |- context [if ?t then hs_part ?a ?b ?c else ?d] => destruct t end; cbn [h_span hs_part hs_free hs_span]; rewrite zupd_same; reflexivity.
      * injection X as <- <-. exact I1.
    + destruct (use_partial h c i) as [b h3] eqn:EU. injection X as <- <-.
      exists A. exact (use_partial_inv h A G c i rest b h3 size I EF EP EU Hs).
  - injection X as <- <-. exists A. split; [apply pop_inv; assumption|].
    destruct (i_free _ _ _ I c b ltac:(rewrite EF; left; reflexivity)) as [_ [HK _]]. exact HK.
Qed.

Lemma up_count x k : 0 <= k -> 0 <= x ->
  x <= (Z.shiftr x k + (if Z.land x (2 ^ k - 1) =? 0 then 0 else 1)) * 2 ^ k < x + 2 ^ k.
Proof.
  intros K X. rewrite land_mask, Z.shiftr_div_pow2 by exact K.
  assert (0 < 2 ^ k) by (apply Z.pow_pos_nonneg; lia).
  pose proof (Z.div_mod x (2 ^ k) ltac:(lia)) as D. pose proof (Z.mod_pos_bound x (2 ^ k) ltac:(lia)).
  destruct (x mod 2 ^ k =? 0) eqn:E; nia.
Qed.

Lemma large_spans_ok size : MEDIUM_LIMIT < size <= LARGE_LIMIT ->
  size + HEADER <= large_spans size * SPAN < size + HEADER + SPAN.
Proof.
  intros H. unfold large_spans, wrap64. cbv zeta. unfold MEDIUM_LIMIT, LARGE_LIMIT, HEADER, SPAN in *.
  rewrite Z.mod_small by lia. apply (up_count (size + 128) 16); lia.
Qed.
Lemma huge_pages_ok size : 0 <= size <= max_size + 4096 ->
  size + HEADER <= huge_pages size * PAGE < size + HEADER + PAGE.
Proof.
  intros H. unfold huge_pages, wrap64. cbv zeta. unfold max_size, LARGE_LIMIT, HEADER, PAGE, SPAN in *.
  rewrite Z.mod_small by lia. apply (up_count (size + 128) 12); lia.
Qed.
Lemma spans_of_pages_ok n : 1 <= n -> 1 <= spans_of_pages n /\ n * PAGE <= spans_of_pages n * SPAN.
Proof.
  intros H. unfold spans_of_pages, PAGE, SPAN.
  pose proof (Z.div_mod (n * 4096 + 65536 - 1) 65536 ltac:(lia)). pose proof (Z.mod_pos_bound (n * 4096 + 65536 - 1) 65536 ltac:(lia)). lia.
Qed.

Lemma alloc_large_inv h A G size ad src r h' :
  inv h A G -> MEDIUM_LIMIT < size <= LARGE_LIMIT -> alloc_large h size ad src = (r, h') ->
  match r with
  | None => inv h' A G
  | Some p => exists A', inv h' A' (((p, size), p) :: G) /\ sp_kind (h_span h' (span_of p)) = K_LARGE /\ p = base (span_of p) + HEADER
  end.
Proof.
  intros I Hs X. unfold alloc_large in X. cbv zeta in X. set (h1 := if ad then adopt h else h) in *.
  assert (I1 : inv h1 A G) by (unfold h1; destruct ad; [apply adopt_inv; exact I | exact I]).
  pose proof (large_spans_ok size Hs) as LS.
  assert (N1 : 1 <= large_spans size) by (unfold MEDIUM_LIMIT, HEADER, SPAN in *; lia).
  destruct (take_spans h1 (large_spans size) src) as [[[i m] h2]|] eqn:ET; [|injection X as <- <-; exact I1].
  destruct (take_inv h1 A G _ src i m h2 I1 N1 ET) as [I2 [U [M1 [M2 [R1 R2]]]]].
  injection X as <- <-.
  destruct (taken_absent h2 A i m ltac:(lia) U (i_range _ _ _ I2)) as [NA NDf].
  assert (SO : span_of (base i + HEADER) = i) by (apply span_of_block; unfold HEADER, SPAN; lia).
  set (s' := set_n (set_kind (h_span h2 i) K_LARGE) m).
  exists ((i, m) :: A). rewrite SO. split; [|split; [cbn [h_span hs_span]; rewrite zupd_same; reflexivity | reflexivity]].
  apply (add_piece h2 _ A G i m s'); auto; try lia; try reflexivity.
  - intros c x Hx. left. split; [exact Hx|]. intros Hi. destruct (i_free _ _ _ I2 c x Hx) as [H1 _]. rewrite Hi in H1. exact (NA 1 H1).
  - intros c H. exfalso. exact (absent_part h2 A G i c I2 NA H).
  - exact (i_pnd _ _ _ I2).
  - right. left. cbn [h_span hs_span]. rewrite zupd_same. split; [reflexivity|]. split; [reflexivity|].
    intros x Hx. rewrite blocks_cons. cbn [snd]. rewrite (absent_held h2 A G i x I2 NA Hx).
    destruct (base i + HEADER =? x) eqn:E1; destruct (x =? base i + HEADER) eqn:E2; lia.
  - unfold held_inv. rewrite SO. cbn [h_span hs_span]. rewrite zupd_same.
    split; [unfold MEDIUM_LIMIT in Hs; lia|]. split; [lia|]. split; [reflexivity|]. exists m. split; [left; reflexivity|]. right.
    cbn [sp_kind s' set_n set_kind]. split; [unfold K_LARGE, CLASSES; lia|]. split; [reflexivity|].
    split; [|intros Q; discriminate Q].
    unfold bytes, base, MEDIUM_LIMIT, HEADER, SPAN in *. nia.
Qed.

Lemma alloc_huge_inv h A G size src r h' :
  inv h A G -> LARGE_LIMIT < size <= max_size + 4096 -> alloc_huge h size src = (r, h') ->
  match r with
  | None => inv h' A G
  | Some p => exists A', inv h' A' (((p, size), p) :: G) /\ sp_kind (h_span h' (span_of p)) = K_HUGE /\ p = base (span_of p) + HEADER
      /\ sp_n (h_span h' (span_of p)) = huge_pages size mod 2 ^ 32
      /\ In (span_of p, spans_of_pages (huge_pages size)) A'
  end.
Proof.
  intros I Hs X. unfold alloc_huge in X. cbv zeta in X. set (h1 := adopt h) in *.
  assert (I1 : inv h1 A G) by (apply adopt_inv; exact I).
  pose proof (huge_pages_ok size ltac:(assert (0 <= LARGE_LIMIT) by discriminate; lia)) as HP. set (pages := huge_pages size) in *.
  assert (P1 : 1 <= pages) by (unfold LARGE_LIMIT, HEADER, PAGE, SPAN in *; lia).
  destruct (spans_of_pages_ok pages P1) as [SP1 SP2]. set (m := spans_of_pages pages) in *.
  set (i := h_next h1) in *.
  assert (Y : src = NoMemory \/ (Some (base i + HEADER), hs_span (hs_next h1 (i + m)) i (set_n (set_kind (h_span (hs_next h1 (i + m)) i) K_HUGE) (pages mod 2 ^ 32))) = (r, h')).
  { destruct src; [right; exact X | right; exact X | left; reflexivity]. }
  destruct Y as [-> | Y]; [injection X as <- <-; exact I1|]. clear X. injection Y as <- <-.
  destruct (map_spans_inv h1 A G m 0 i m (hs_pool (hs_next h1 (i + m + Z.max 0 0)) (h_pool h1)) I1 SP1 eq_refl) as [I2 [U [_ [R1 R2]]]].
  set (h2 := hs_pool (hs_next h1 (i + m + Z.max 0 0)) (h_pool h1)) in *.
  assert (Eh : forall s, hs_span (hs_next h1 (i + m)) i s = hs_span h2 i s).
  { intros s. unfold h2. replace (i + m + Z.max 0 0) with (i + m) by lia. reflexivity. }
  rewrite Eh. change (h_span (hs_next h1 (i + m))) with (h_span h2).
  destruct (taken_absent h2 A i m ltac:(lia) U (i_range _ _ _ I2)) as [NA NDf].
  assert (SO : span_of (base i + HEADER) = i) by (apply span_of_block; unfold HEADER, SPAN; lia).
  set (s' := set_n (set_kind (h_span h2 i) K_HUGE) (pages mod 2 ^ 32)).
  exists ((i, m) :: A). rewrite SO.
  split; [|split; [cbn [h_span hs_span]; rewrite zupd_same; reflexivity | split; [reflexivity | split; [cbn [h_span hs_span]; rewrite zupd_same; reflexivity | left; reflexivity]]]].
  apply (add_piece h2 _ A G i m s'); auto; try lia; try reflexivity.
  - intros c x Hx. left. split; [exact Hx|]. intros Hi. destruct (i_free _ _ _ I2 c x Hx) as [H1 _]. rewrite Hi in H1. exact (NA 1 H1).
  - intros c H. exfalso. exact (absent_part h2 A G i c I2 NA H).
  - exact (i_pnd _ _ _ I2).
  - right. right. cbn [h_span hs_span]. rewrite zupd_same. split; [reflexivity|].
    intros x Hx. rewrite blocks_cons. cbn [snd]. rewrite (absent_held h2 A G i x I2 NA Hx).
    destruct (base i + HEADER =? x) eqn:E1; destruct (x =? base i + HEADER) eqn:E2; lia.
  - unfold held_inv. rewrite SO. cbn [h_span hs_span]. rewrite zupd_same.
    split; [unfold LARGE_LIMIT, SPAN, HEADER in Hs; lia|]. split; [lia|]. split; [reflexivity|]. exists m. split; [left; reflexivity|]. right.
    cbn [sp_kind sp_n s' set_n set_kind]. split; [unfold K_HUGE, CLASSES; lia|]. split; [reflexivity|].
    split; [unfold bytes, base, LARGE_LIMIT, HEADER, SPAN, PAGE in *; nia|].
    intros _. exists pages. split; [reflexivity|]. unfold HEADER, PAGE in *. lia.
Qed.

Definition class_of (size : Z) : Z :=
  if size <=? SMALL_LIMIT then small_class size else if size <=? MEDIUM_LIMIT then medium_class size
  else if size <=? LARGE_LIMIT then K_LARGE else K_HUGE.

Lemma class_of_ok size : 0 <= size <= MEDIUM_LIMIT -> 0 <= class_of size < CLASSES /\ size <= c_bs (class_at (class_of size)).
Proof.
  intros H. unfold class_of. destruct (size <=? SMALL_LIMIT) eqn:E1.
  - destruct (small_class_ok size ltac:(lia)) as [? [? _]]. auto.
  - destruct (size <=? MEDIUM_LIMIT) eqn:E2; [|lia].
    destruct (medium_class_ok size ltac:(lia)) as [? [? _]]. auto.
Qed.

Lemma alloc_inv h A G size ad src r h' :
  inv h A G -> 0 <= size <= max_size + 4096 -> alloc h size ad src = (r, h') ->
  match r with
  | None => inv h' A G
  | Some p => exists A', inv h' A' (((p, size), p) :: G) /\ sp_kind (h_span h' (span_of p)) = class_of size
      /\ (MEDIUM_LIMIT < size -> p = base (span_of p) + HEADER)
      /\ (LARGE_LIMIT < size -> sp_n (h_span h' (span_of p)) = huge_pages size mod 2 ^ 32 /\ In (span_of p, spans_of_pages (huge_pages size)) A')
  end.
Proof.
  intros I Hs X. unfold alloc in X. unfold class_of.
  assert (ML : MEDIUM_LIMIT < LARGE_LIMIT) by reflexivity. assert (SM : SMALL_LIMIT < MEDIUM_LIMIT) by reflexivity.
  destruct (size <=? SMALL_LIMIT) eqn:E1.
  - destruct (small_class_ok size ltac:(lia)) as [C1 [C2 _]].
    pose proof (alloc_class_inv h A G _ ad src r h' size I C1 ltac:(lia) X) as Q. destruct r as [p|]; [|exact Q].
    destruct Q as [A' [Q1 Q2]]. exists A'. split; [exact Q1|]. split; [exact Q2|]. split; intros; first [assumption | split; assumption | lia].
  - destruct (size <=? MEDIUM_LIMIT) eqn:E2.
    + destruct (medium_class_ok size ltac:(lia)) as [C1 [C2 _]].
      pose proof (alloc_class_inv h A G _ ad src r h' size I C1 ltac:(lia) X) as Q. destruct r as [p|]; [|exact Q].
      destruct Q as [A' [Q1 Q2]]. exists A'. split; [exact Q1|]. split; [exact Q2|]. split; intros; first [assumption | split; assumption | lia].
    + destruct (size <=? LARGE_LIMIT) eqn:E3.
      * pose proof (alloc_large_inv h A G size ad src r h' I ltac:(lia) X) as Q. destruct r as [p|]; [|exact Q].
        destruct Q as [A' [Q1 [Q2 Q3]]]. exists A'. split; [exact Q1|]. split; [exact Q2|]. split; intros; first [assumption | split; assumption | lia].
      * pose proof (alloc_huge_inv h A G size src r h' I ltac:(lia) X) as Q. destruct r as [p|]; [|exact Q].
        destruct Q as [A' [Q1 [Q2 [Q3 [Q4 Q5]]]]]. exists A'. split; [exact Q1|]. split; [exact Q2|]. split; intros; first [assumption | split; assumption | lia].
Qed.

(* ---- aligned allocation ---- *)

Lemma shift_inv h A G b sz q size i :
  inv h A (((b, sz), b) :: G) -> span_of b = i -> span_of q = i -> b <= q -> 0 <= size -> q + bytes size <= b + bytes sz ->
  (sp_kind (h_span h i) = K_HUGE -> forall n, In (i, n) A -> huge_ok (h_span h i) n i q size) ->
  inv (hs_span h i (set_al (h_span h i) true)) A (((q, size), b) :: G).
Proof.
  intros I Sb Sq Bq S0 Q HH. set (s := h_span h i) in *.
  pose proof (i_held _ _ _ I _ (or_introl eq_refl)) as HB. unfold held_inv in HB. rewrite Sb in HB. fold s in HB.
  destruct HB as [H1 [_ [_ [n [HA H5]]]]].
  assert (ND : ~ In i (h_defer h)) by (apply (not_deferred h A _ i n I HA)).
  destruct I as [u rg dk pc pt pn fr hd nx].
  assert (EB : forall x, occ x (blocks (((q, size), b) :: G)) = occ x (blocks (((b, sz), b) :: G))) by (intros x; reflexivity).
  assert (ED : dpieces (hs_span h i (set_al s true)) = dpieces h).
  { apply dpieces_frame; [reflexivity|]. intros j Hj. cbn [h_span hs_span]. apply zupd_other. intros ->. contradiction. }
  assert (KS : forall j, sp_kind (zupd (h_span h) i (set_al s true) j) = sp_kind (h_span h j)).
  { intros j. destruct (Z.eq_dec j i) as [-> | N]; [rewrite zupd_same; reflexivity | rewrite zupd_other by exact N; reflexivity]. }
  constructor; auto.
  - rewrite ED. exact u.
  - rewrite ED. exact rg.
  - intros j Hj. cbn [h_span hs_span]. rewrite KS. apply dk. exact Hj.
  - intros j m Hj. pose proof (pc j m Hj) as P. destruct (Z.eq_dec j i) as [-> | N].
    + unfold piece_inv in *. cbv zeta in *. cbn [h_span hs_span h_free h_part]. rewrite zupd_same. fold s in P.
      destruct P as [[K [M P]] | [[K [M P]] | [K P]]].
      * left. split; [exact K|]. split; [exact M|]. destruct P as [a1 a2 a3 a4 a5 a6 a7 a8]. constructor; auto.
      * right. left. auto.
      * right. right. auto.
    + apply (piece_frame h _ (((b, sz), b) :: G)); auto; [|reflexivity..].
      cbn [h_span hs_span]. apply zupd_other. exact N.
  - intros c j Hj. cbn [h_span hs_span]. rewrite KS. apply pt. exact Hj.
  - intros c x Hx. cbn [h_span hs_span]. rewrite KS. apply fr. exact Hx.
  - intros e [<- | He].
    + unfold held_inv. rewrite Sb. cbn [h_span hs_span]. rewrite zupd_same. split; [exact S0|]. split; [exact Bq|]. split; [exact Sq|].
      exists n. split; [exact HA|]. cbn [sp_kind sp_bs sp_al sp_n set_al].
      destruct H5 as [[K [W _]] | [K [W1 [W2 _]]]].
      * left. split; [exact K|]. split; [lia | reflexivity].
      * right. split; [exact K|]. split; [exact W1|]. split; [lia | intros Hk; exact (HH Hk n HA)].
    + pose proof (hd e (or_intror He)) as W. destruct e as [[p1 sz1] b1]. unfold held_inv in *. cbn [h_span hs_span].
      destruct (Z.eq_dec (span_of b1) i) as [Eb | N]; [|rewrite zupd_other by exact N; exact W].
      rewrite Eb in *. rewrite zupd_same. cbn [sp_kind sp_bs sp_al sp_n set_al]. fold s in W.
      destruct W as [W1 [W2 [W3 [m [W4 W5]]]]]. split; [exact W1|]. split; [exact W2|]. split; [exact W3|]. exists m. split; [exact W4|].
      destruct W5 as [[K [W _]] | W5]; [left | right; exact W5]. split; [exact K|]. split; [exact W | reflexivity].
Qed.

(* the address of a block *)
Lemma held_block h A G p size b : inv h A G -> In ((p, size), b) G -> sp_kind (h_span h (span_of b)) < CLASSES ->
  exists k, 0 <= k < sp_limit (h_span h (span_of b)) /\ b = base (span_of b) + HEADER + k * sp_bs (h_span h (span_of b))
   /\ 0 <= sp_kind (h_span h (span_of b))
   /\ span_inv (h_span h (span_of b)) (span_of b) (h_free h (sp_kind (h_span h (span_of b)))) (h_part h (sp_kind (h_span h (span_of b)))) G.
Proof.
  intros I H K. pose proof (i_held _ _ _ I _ H) as HB. unfold held_inv in HB. destruct HB as [_ [_ [_ [n [HA _]]]]].
  pose proof (i_pieces _ _ _ I _ _ HA) as P. unfold piece_inv in P. cbv zeta in P.
  destruct P as [[K2 [_ P]] | [[P _] | [P _]]]; [|unfold K_LARGE, CLASSES in *; lia | unfold K_HUGE, CLASSES in *; lia].
  pose proof (si_occ _ _ _ _ _ P b eq_refl) as O.
  assert (OB : (occ b (blocks G) > 0)%nat) by (apply occ_in; apply (in_map snd) in H; exact H).
  destruct (isblk_pos _ _ _ _ _ b K2 P ltac:(lia)) as [k [Hk Eb]]. exists k. split; [exact Hk|]. split; [exact Eb|]. split; [lia | exact P].
Qed.

Lemma block_mod h A G p size b d : inv h A G -> In ((p, size), b) G -> 0 < d -> HEADER mod d = 0 -> SPAN mod d = 0 ->
  (sp_kind (h_span h (span_of b)) < CLASSES -> c_bs (class_at (sp_kind (h_span h (span_of b)))) mod d = 0) -> b mod d = 0.
Proof.
  intros I H D M1 M2 M3.
  pose proof (i_held _ _ _ I _ H) as HB. unfold held_inv in HB. destruct HB as [_ [_ [_ [n [HA HB]]]]].
  assert (T : forall x y z, x mod d = 0 -> y mod d = 0 -> (x * z + y) mod d = 0).
  { intros x y z Hx Hy. rewrite Z.add_mod, Z.mul_mod, Hx, Hy by lia. rewrite Z.mul_0_l, Z.mod_0_l by lia. reflexivity. }
  destruct HB as [[K _] | [K [Eb _]]].
  - destruct (held_block h A G p size b I H K) as [k [_ [Eb [K0 P]]]]. rewrite Eb.
    replace (base (span_of b) + HEADER + k * sp_bs (h_span h (span_of b))) with (SPAN * span_of b + (sp_bs (h_span h (span_of b)) * k + HEADER)) by (unfold base; lia).
    apply T; [exact M2|]. apply T; [|exact M1]. rewrite (si_bs _ _ _ _ _ P). apply M3. exact K.
  - rewrite Eb. unfold base. replace (SPAN * span_of b + HEADER) with (SPAN * span_of b + (HEADER * 1 + 0)) by lia.
    apply T; [exact M2|]. apply T; [exact M1 | apply Z.mod_0_l; lia].
Qed.

Lemma ldiff_mask x k : 0 <= k -> Z.ldiff x (2 ^ k - 1) = x - x mod 2 ^ k.
Proof.
  intros K. replace (2 ^ k - 1) with (Z.ones k) by (rewrite Z.ones_equiv; lia).
  rewrite Z.ldiff_ones_r, Z.shiftl_mul_pow2, Z.shiftr_div_pow2 by lia.
  pose proof (Z.div_mod x (2 ^ k) ltac:(pose proof (Z.pow_pos_nonneg 2 k); lia)). lia.
Qed.

Lemma round_header_ok size : 0 <= size <= max_size -> size <= round_header size < size + HEADER + (if size =? 0 then 1 else 0) /\ round_header size mod HEADER = 0.
Proof.
  intros H. unfold round_header, wrap64, HEADER, max_size in *. destruct (size =? 0) eqn:E; [split; [lia | reflexivity]|].
  rewrite (Z.mod_small (size + (128 - 1))) by lia.
  assert (L : Z.land (size + (128 - 1)) (Z.lnot (128 - 1) mod 2 ^ 64) = Z.ldiff (size + (128 - 1)) (2 ^ 7 - 1)).
  { change (Z.lnot (128 - 1) mod 2 ^ 64) with (Z.land (Z.lnot 127) (Z.ones 64)).
    rewrite (Z.land_comm (Z.lnot 127) (Z.ones 64)), Z.land_assoc, Z.land_ones, Z.mod_small by lia. symmetry. apply Z.ldiff_land. }
  rewrite L, ldiff_mask by lia. change (2 ^ 7) with 128.
  pose proof (Z.div_mod (size + (128 - 1)) 128 ltac:(lia)). pose proof (Z.mod_pos_bound (size + (128 - 1)) 128 ltac:(lia)).
  split; [lia|]. replace (size + (128 - 1) - (size + (128 - 1)) mod 128) with (128 * ((size + (128 - 1)) / 128)) by lia.
  rewrite Z.mul_comm, Z.mod_mul by lia. reflexivity.
Qed.

Lemma class_of_bs size : 0 <= size <= MEDIUM_LIMIT -> size mod 128 = 0 -> 0 < size -> c_bs (class_at (class_of size)) mod 128 = 0.
Proof.
  intros H M P. unfold class_of. destruct (size <=? SMALL_LIMIT) eqn:E1.
  - destruct (small_class_ok size ltac:(lia)) as [_ [_ E]]. rewrite E. unfold small_class. rewrite Z.shiftr_div_pow2 by lia. change (2 ^ 4) with 16.
    assert (D : exists q, size = 16 * (8 * q)) by (exists (size / 128); pose proof (Z.div_mod size 128 ltac:(lia)); lia).
    destruct D as [q ->].
    replace (16 * (8 * q) + 15) with (15 + (8 * q) * 16) by lia. rewrite Z.div_add by lia. change (15 / 16) with 0.
    rewrite Z.max_r by lia. replace (16 * (0 + 8 * q)) with (q * 128) by lia. apply Z.mod_mul. lia.
  - destruct (size <=? MEDIUM_LIMIT) eqn:E2; [|lia].
    destruct (medium_class_ok size ltac:(lia)) as [_ [_ E]].
    set (bs := c_bs (class_at (medium_class size))) in *.
    pose proof (Z.div_mod bs 512 ltac:(lia)) as D. rewrite E in D.
    replace bs with ((4 * (bs / 512)) * 128) by lia. apply Z.mod_mul. lia.
Qed.

Lemma div_pow d k j : 0 <= k -> 0 <= j -> k <= j -> d mod 2 ^ j = 0 -> d mod 2 ^ k = 0.
Proof.
  intros K J L M. pose proof (Z.pow_pos_nonneg 2 k ltac:(lia) K). pose proof (Z.pow_pos_nonneg 2 j ltac:(lia) J).
  pose proof (Z.div_mod d (2 ^ j) ltac:(lia)) as D. rewrite M in D.
  replace j with ((j - k) + k) in D at 1 by lia. rewrite Z.pow_add_r in D by lia.
  replace d with ((d / 2 ^ j * 2 ^ (j - k)) * 2 ^ k) by lia. apply Z.mod_mul. lia.
Qed.

Lemma alloc_mod16 h A G p size b : inv h A G -> In ((p, size), b) G -> b mod 16 = 0.
Proof.
  intros I H. apply (block_mod h A G p size b 16 I H); [lia | reflexivity | reflexivity|].
  intros K. destruct (held_block h A G p size b I H K) as [_ [_ [_ [K0 _]]]]. apply class_facts. lia.
Qed.

Lemma relabel_inv h A G e e' : inv h A (e :: G) -> snd e' = snd e -> held_inv h A e' -> inv h A (e' :: G).
Proof.
  intros [u rg dk pc pt pn fr hd nx] E H. constructor; auto.
  - intros j m Hj. apply (piece_frame h h (e :: G)); auto; [reflexivity|]. intros x _. rewrite !blocks_cons, E. reflexivity.
  - intros x [<- | Hx]; [exact H | apply hd; right; exact Hx].
Qed.

Lemma aligned_inv h A G al size ad src r h' :
  inv h A G -> 0 <= size <= max_size -> pow2 al -> al <= 4096 -> aligned_alloc h al size ad src = (r, h') ->
  match r with
  | None => inv h' A G
  | Some p => (exists A' b, inv h' A' (((p, size), b) :: G)) /\ p mod al = 0
  end.
Proof.
  intros I Hs [k [K0 Eal]] AL X. unfold aligned_alloc in X.
  assert (KA : k <= 12). { destruct (Z.le_gt_cases k 12) as [L | L]; [exact L|]. assert (2 ^ 13 <= 2 ^ k) by (apply Z.pow_le_mono_r; lia). lia. }
  assert (A1 : 1 <= al) by (rewrite Eal; pose proof (Z.pow_pos_nonneg 2 k); lia).
  destruct (al <=? 16) eqn:E1.
  { pose proof (alloc_inv h A G size ad src r h' I ltac:(lia) X) as Q. destruct r as [p|]; [|exact Q].
    destruct Q as [A' [Q1 _]]. split; [exists A', p; exact Q1|].
    assert (K4 : k <= 4). { destruct (Z.le_gt_cases k 4) as [L | L]; [exact L|]. assert (2 ^ 5 <= 2 ^ k) by (apply Z.pow_le_mono_r; lia). lia. }
    rewrite Eal. apply (div_pow p k 4); [lia | lia | exact K4 |].
    apply (alloc_mod16 h' A' _ p size p Q1). left. reflexivity. }
  assert (W1 : wrap64 (size + HEADER) = size + HEADER) by (unfold wrap64, max_size, HEADER in *; apply Z.mod_small; lia).
  assert (W2 : wrap64 (size + al) = size + al) by (unfold wrap64, max_size in *; apply Z.mod_small; lia).
  rewrite W1, W2 in X.
  destruct (round_header_ok size Hs) as [RH1 RH2].
  destruct ((al <=? HEADER) && (size + HEADER <? MEDIUM_LIMIT) && (round_header size <=? size + al)) eqn:E2.
  { assert (E2a : al <= 128 /\ size + 128 < MEDIUM_LIMIT) by (unfold HEADER in E2; lia). destruct E2a as [E2a E2b].
    assert (RB : 0 < round_header size <= MEDIUM_LIMIT).
    { unfold HEADER in *. destruct (size =? 0) eqn:Ez; [|lia]. assert (size = 0) by lia. subst size. change (round_header 0) with 128. unfold MEDIUM_LIMIT. lia. }
    pose proof (alloc_inv h A G (round_header size) ad src r h' I ltac:(unfold MEDIUM_LIMIT, max_size in *; lia) X) as Q. destruct r as [p|]; [|exact Q].
    destruct Q as [A' [Q1 [Q2 _]]].
    assert (PM : p mod 128 = 0).
    { apply (block_mod h' A' _ p (round_header size) p 128 Q1 (or_introl eq_refl)); [lia | reflexivity | reflexivity|].
      intros _. rewrite Q2. apply class_of_bs; [lia | exact RH2 | lia]. }
    split.
    - exists A', p. apply (relabel_inv h' A' G ((p, round_header size), p)); [exact Q1 | reflexivity|].
      pose proof (i_held _ _ _ Q1 _ (or_introl eq_refl)) as W. unfold held_inv in *. rewrite Q2 in *.
      destruct W as [_ [W2' [W3 [n [W4 W5]]]]]. split; [lia|]. split; [exact W2'|]. split; [exact W3|]. exists n. split; [exact W4|].
      pose proof (class_of_ok (round_header size) ltac:(lia)) as [CO _].
      destruct W5 as [[W5 [W6 W7]] | [W5 _]]; [|unfold CLASSES in *; lia].
      left. split; [exact W5|]. split; [|exact W7]. unfold bytes in *. lia.
    - rewrite Eal. apply (div_pow p k 7); [lia | lia | | exact PM].
      destruct (Z.le_gt_cases k 7) as [L | L]; [exact L|]. assert (2 ^ 8 <= 2 ^ k) by (apply Z.pow_le_mono_r; lia). lia. }
  destruct (alloc h (size + al) ad src) as [[p|] h1] eqn:EA.
  2:{ injection X as <- <-. exact (alloc_inv h A G (size + al) ad src None h1 I ltac:(lia) EA). }
  destruct (alloc_inv h A G (size + al) ad src (Some p) h1 I ltac:(lia) EA) as [A' [Q1 [Q2 [Q3 Q4]]]].
  assert (HP : Z.land p (al - 1) = p mod al) by (rewrite Eal; apply land_mask; exact K0).
  rewrite HP in X. pose proof (Z.mod_pos_bound p al ltac:(lia)) as MB.
  pose proof (i_held _ _ _ Q1 _ (or_introl eq_refl)) as HB. unfold held_inv in HB. destruct HB as [_ [_ [_ [n [HA HB]]]]].
  assert (HH : forall q, p <= q <= p + al -> sp_kind (h_span h1 (span_of p)) = K_HUGE ->
     forall n, In (span_of p, n) A' -> huge_ok (h_span h1 (span_of p)) n (span_of p) q size).
  { intros q Hq Hk n' HA'.
    assert (LH : LARGE_LIMIT < size + al).
    { rewrite Q2 in Hk. unfold class_of in Hk.
      destruct (size + al <=? SMALL_LIMIT) eqn:F1; [destruct (small_class_ok (size + al) ltac:(lia)) as [? _]; unfold K_HUGE, CLASSES in *; lia|].
      destruct (size + al <=? MEDIUM_LIMIT) eqn:F2; [destruct (medium_class_ok (size + al) ltac:(lia)) as [? _]; unfold K_HUGE, CLASSES in *; lia|].
      destruct (size + al <=? LARGE_LIMIT) eqn:F3; [discriminate Hk | lia]. }
    destruct (Q4 LH) as [Q5 Q6]. rewrite (piece_unique h1 A' _ _ _ _ Q1 HA' Q6).
    exists (huge_pages (size + al)). split; [exact Q5|].
    pose proof (huge_pages_ok (size + al) ltac:(lia)) as HG.
    assert (ML : MEDIUM_LIMIT < LARGE_LIMIT) by reflexivity.
    specialize (Q3 ltac:(lia)).
    pose proof (spans_of_pages_ok (huge_pages (size + al)) ltac:(unfold LARGE_LIMIT, HEADER, PAGE, SPAN in *; lia)) as [_ SP2].
    split; [unfold LARGE_LIMIT, HEADER, PAGE, SPAN in *; lia|]. split; [unfold HEADER, PAGE in *; lia|].
    split; [exact SP2 | unfold HEADER, PAGE in *; lia]. }
  destruct (p mod al =? 0) eqn:E3.
  - injection X as <- <-. split; [|lia]. exists A', p.
    apply (relabel_inv h1 A' G ((p, size + al), p)); [exact Q1 | reflexivity|].
    unfold held_inv. split; [lia|]. split; [lia|]. split; [reflexivity|]. exists n. split; [exact HA|].
    destruct HB as [[B1 [B2 B3]] | [B1 [B2 [B3 B4]]]].
    + left. split; [exact B1|]. split; [unfold bytes in *; lia | exact B3].
    + right. split; [exact B1|]. split; [exact B2|]. split; [unfold bytes in *; lia|].
      intros Hk. apply HH; [lia | exact Hk | exact HA].
  - assert (QE : Z.ldiff p (al - 1) + al = p + (al - p mod al)) by (rewrite Eal, ldiff_mask by exact K0; lia).
    rewrite QE in X. set (q := p + (al - p mod al)) in *.
    assert (P16 : p mod 16 = 0) by (apply (alloc_mod16 h1 A' _ p (size + al) p Q1); left; reflexivity).
    assert (SQ : span_of q = span_of p).
    { destruct HB as [[B1 [B2 _]] | [B1 [B2 _]]].
      - destruct (held_block h1 A' _ p (size + al) p Q1 (or_introl eq_refl) B1) as [j [J1 [J2 [J3 J4]]]].
        pose proof (si_limit _ _ _ _ _ J4).
        replace q with (base (span_of p) + HEADER + j * sp_bs (h_span h1 (span_of p)) + (q - p)) by lia.
        apply (block_span (h_span h1 (span_of p)) (span_of p) _ _ _ j (q - p) ltac:(lia) J4); [lia|]. unfold q, bytes in *. lia.
      - replace q with (base (span_of p) + (HEADER + (q - p))) by lia. apply span_of_block. unfold q, HEADER, SPAN in *. lia. }
    injection X as <- <-. rewrite SQ. split.
    + exists A', p. apply (shift_inv h1 A' G p (size + al) q size (span_of p) Q1); auto; unfold q, bytes in *; try lia.
      apply (HH (p + (al - p mod al))). lia.
    + unfold q. pose proof (Z.div_mod p al ltac:(lia)). replace (p + (al - p mod al)) with ((p / al + 1) * al) by lia. apply Z.mod_mul. lia.
Qed.

(* ---- freeing ---- *)

Lemma remove_piece h h' A1 i n A2 G1 e G2 :
  inv h (A1 ++ (i, n) :: A2) (G1 ++ e :: G2) -> span_of (snd e) = i ->
  (forall j, j <> i -> h_span h' j = h_span h j) -> h_free h' = h_free h -> h_next h' = h_next h ->
  (forall c j, In j (h_part h' c) <-> In j (h_part h c) /\ j <> i) -> (forall c, NoDup (h_part h' c)) ->
  (forall c x, In x (h_free h c) -> span_of x <> i) ->
  (forall x, span_of x = i -> occ x (blocks (G1 ++ G2)) = 0%nat) ->
  (forall u, (cnt u (h_pool h') + cnt u (dpieces h') <= cnt u (h_pool h) + cnt u (dpieces h) + (if ((i <=? u) && (u <? i + n))%Z then 1 else 0))%nat) ->
  (forall j m, In (j, m) (h_pool h') \/ In (j, m) (dpieces h') -> In (j, m) (h_pool h) \/ In (j, m) (dpieces h) \/ (j = i /\ 1 <= m <= n)) ->
  (forall j, In j (h_defer h') -> In j (h_defer h) /\ j <> i \/
     j = i /\ (sp_kind (h_span h' i) < CLASSES \/ sp_kind (h_span h' i) = K_LARGE \/ sp_kind (h_span h' i) = K_HUGE)) ->
  inv h' (A1 ++ A2) (G1 ++ G2).
Proof.
  intros I Sb ES EF EN EP PND NF NG CU RG DK.
  assert (NA : forall m, ~ In (i, m) (A1 ++ A2)).
  { intros m H. pose proof (i_units _ _ _ I i) as U. rewrite cnt_app in U. cbn [cnt] in U.
    assert (1 <= n) by (apply (i_range _ _ _ I i n); right; right; apply in_elt).
    assert (1 <= m). { apply (i_range _ _ _ I i m). right. right. apply in_app_iff in H. apply in_app_iff. cbn [In]. tauto. }
    pose proof (cnt_self i m _ H ltac:(lia)) as C. rewrite cnt_app in C.
    destruct (i <=? i) eqn:E1; destruct (i <? i + n) eqn:E2; cbn in U; lia. }
  destruct I as [u rg dk pc pt pn fr hd nx].
  assert (SUB : forall j m, In (j, m) (A1 ++ A2) -> In (j, m) (A1 ++ (i, n) :: A2)).
  { intros j m. rewrite !in_app_iff. cbn [In]. tauto. }
  assert (KEEP : forall j m, In (j, m) (A1 ++ (i, n) :: A2) -> j <> i -> In (j, m) (A1 ++ A2)).
  { intros j m. rewrite !in_app_iff. cbn [In]. intros [H | [H | H]] N; [tauto | congruence | tauto]. }
  constructor.
  - intros x. specialize (u x). specialize (CU x). rewrite cnt_app in *. cbn [cnt] in *. lia.
  - intros j m H. rewrite EN.
    assert (W : In (j, m) (h_pool h) \/ In (j, m) (dpieces h) \/ (j = i /\ 1 <= m <= n) \/ In (j, m) (A1 ++ A2)).
    { destruct H as [H | [H | H]]; [specialize (RG j m (or_introl H)) | specialize (RG j m (or_intror H)) |]; tauto. }
    destruct W as [W | [W | [W | W]]].
    + apply rg. tauto.
    + apply rg. tauto.
    + destruct W as [-> W]. assert (R := rg i n (or_intror (or_intror (in_elt _ _ _)))). lia.
    + apply rg. right. right. apply SUB. exact W.
  - intros j Hj. destruct (DK j Hj) as [[D1 D2] | [-> D]]; [|exact D]. rewrite ES by exact D2. apply dk. exact D1.
  - intros j m Hj. assert (N : j <> i) by (intros ->; exact (NA m Hj)).
    apply (piece_frame h h' (G1 ++ e :: G2)); [apply pc; apply SUB; exact Hj | apply ES; exact N | | |].
    + intros x Hx. rewrite EF. reflexivity.
    + rewrite EP. tauto.
    + intros x Hx. rewrite blocks_mid. destruct (snd e =? x) eqn:Ex; [|reflexivity]. assert (snd e = x) by lia. congruence.
  - intros c j Hj. apply EP in Hj. destruct Hj as [Hj N]. destruct (pt c j Hj) as [H1 [H2 H3]].
    split; [apply KEEP; assumption|]. rewrite ES by exact N. auto.
  - exact PND.
  - intros c x Hx. rewrite EF in Hx. destruct (fr c x Hx) as [H1 [H2 H3]]. pose proof (NF c x Hx) as N.
    split; [apply KEEP; assumption|]. rewrite ES by exact N. auto.
  - intros e' He.
    assert (N : span_of (snd e') <> i).
    { intros Q. specialize (NG (snd e') Q). apply occ_notin in NG. apply NG. apply (in_map snd). exact He. }
    apply (held_frame h h' (A1 ++ (i, n) :: A2)); [|apply ES; exact N | intros m Hm; apply KEEP; assumption].
    apply hd. apply in_app_iff in He. apply in_app_iff. cbn [In]. tauto.
  - rewrite EN. exact nx.
Qed.

Lemma remove_z_in x y l : NoDup l -> (In y (remove_z x l) <-> In y l /\ y <> x).
Proof.
  induction l as [|z l IH]; intros N; cbn [remove_z In]; [tauto|].
  inversion N as [|? ? N1 N2]; subst. destruct (z =? x) eqn:E.
  - assert (z = x) by lia. subst z. split.
    + intros H. split; [tauto|]. intros ->. contradiction.
    + intros [[H | H] D]; [congruence | exact H].
  - cbn [In]. rewrite IH by exact N2. split; [|tauto]. intros [H | H]; [|tauto]. split; [tauto|]. subst z. lia.
Qed.
Lemma remove_z_nodup x l : NoDup l -> NoDup (remove_z x l).
Proof.
  induction l as [|z l IH]; intros N; cbn [remove_z]; [constructor|].
  inversion N as [|? ? N1 N2]; subst. destruct (z =? x); [exact N2|]. constructor; [|auto].
  intros H. apply remove_z_in in H; tauto.
Qed.

(* when the lists of a span hold as many blocks as were set up, they hold them all *)
Lemma lists_full s i hf hp G : 0 <= sp_kind s < CLASSES -> span_inv s i hf hp G ->
  Z.of_nat (length (sp_free s)) + Z.of_nat (length (sp_defer s)) >= sp_limit s ->
  forall x, span_of x = i -> occ x hf = 0%nat /\ occ x (blocks G) = 0%nat.
Proof.
  intros K P L x Hx.
  pose proof (class_facts _ K) as [B1 [B2 [B3 _]]]. rewrite <- (si_bs _ _ _ _ _ P), <- (si_cnt _ _ _ _ _ P) in *.
  pose proof (si_limit _ _ _ _ _ P) as LM.
  set (all := ar (base i + HEADER) (sp_bs s) (Z.to_nat (sp_limit s))).
  assert (OA : forall y, occ y all = isblk s i y).
  { intros y. unfold all. rewrite occ_ar by lia. unfold isblk. rewrite Z2Nat.id by lia. reflexivity. }
  set (l := sp_free s ++ sp_defer s).
  assert (LO : forall y, In y l -> span_of y = i).
  { intros y Hy. apply (si_in _ _ _ _ _ P). apply in_app_iff in Hy. exact Hy. }
  assert (OL : forall y, span_of y = i -> (occ y l + occ y hf + occ y (blocks G) = isblk s i y)%nat).
  { intros y Hy. unfold l. rewrite occ_app. pose proof (si_occ _ _ _ _ _ P y Hy). lia. }
  assert (ND : NoDup l).
  { apply (NoDup_count_occ Z.eq_dec). intros y. destruct (Z.eq_dec (span_of y) i) as [E | E].
    - specialize (OL y E). pose proof (isblk_le s i y). unfold occ in OL at 1. lia.
    - replace (count_occ Z.eq_dec l y) with 0%nat; [lia|]. symmetry. apply occ_notin. intros H. apply E, LO, H. }
  assert (INC : incl all l).
  { apply NoDup_length_incl; [exact ND | |].
    - unfold all. rewrite ar_len. unfold l. rewrite app_length. lia.
    - intros y Hy. apply occ_in. rewrite OA. specialize (OL y (LO y Hy)). apply occ_in in Hy. lia. }
  specialize (OL x Hx). pose proof (isblk_le s i x). destruct (isblk s i x) eqn:E; [lia|].
  assert (HI : In x all) by (apply occ_in; rewrite OA; lia).
  apply INC in HI. apply occ_in in HI. lia.
Qed.

Lemma block_of_ok h A G p size b : inv h A G -> In ((p, size), b) G -> sp_kind (h_span h (span_of b)) < CLASSES ->
  block_of (h_span h (span_of b)) (span_of b) p = b.
Proof.
  intros I H K. destruct (held_block h A G p size b I H K) as [k [Hk [Eb [K0 P]]]].
  pose proof (i_held _ _ _ I _ H) as HB. unfold held_inv in HB. destruct HB as [H1 [H2 [_ [n [HA HB]]]]].
  destruct HB as [[_ [B1 B2]] | [B1 _]]; [|lia].
  set (i := span_of b) in *. set (s := h_span h i) in *. unfold block_of. destruct (sp_al s) eqn:EA.
  - pose proof (class_facts (sp_kind s) ltac:(lia)) as [C1 _]. rewrite <- (si_bs _ _ _ _ _ P) in C1.
    replace (p - (base i + HEADER)) with ((p - b) + k * sp_bs s) by lia.
    rewrite Z.mod_add, Z.mod_small by (unfold bytes in *; lia). lia.
  - destruct (Z.eq_dec p b) as [-> | N]; [reflexivity|]. specialize (B2 N). congruence.
Qed.

Lemma isblk_lists s f u ls d i x : isblk (set_lists s f (sp_limit s) u ls d) i x = isblk s i x.
Proof. reflexivity. Qed.

(* a span that stays in use, its lists changed *)
Lemma keep_piece h h' A i G G' s' :
  inv h A G -> In (i, 1) A -> 0 <= sp_kind (h_span h i) < CLASSES ->
  h_span h' = zupd (h_span h) i s' -> sp_kind s' = sp_kind (h_span h i) -> sp_al s' = sp_al (h_span h i) -> sp_bs s' = sp_bs (h_span h i) ->
  h_free h' = h_free h -> h_pool h' = h_pool h -> h_defer h' = h_defer h -> h_next h' = h_next h ->
  (forall c j, j <> i \/ c <> sp_kind s' -> (In j (h_part h' c) <-> In j (h_part h c))) -> (forall c, NoDup (h_part h' c)) ->
  (forall e, In e G' -> In e G) -> (forall x, span_of x <> i -> occ x (blocks G') = occ x (blocks G)) ->
  span_inv s' i (h_free h (sp_kind s')) (h_part h' (sp_kind s')) G' ->
  inv h' A G'.
Proof.
  intros I HA K ES EK EAl EB EF EP ED EN HP PND HG HO SI.
  assert (ND : ~ In i (h_defer h)) by (apply (not_deferred h A G i 1 I HA)).
  assert (EDP : dpieces h' = dpieces h).
  { apply dpieces_frame; [exact ED|]. intros j Hj. rewrite ES. apply zupd_other. intros ->. contradiction. }
  assert (KS : forall j, sp_kind (h_span h' j) = sp_kind (h_span h j)).
  { intros j. rewrite ES. destruct (Z.eq_dec j i) as [-> | N]; [rewrite zupd_same; exact EK | rewrite zupd_other by exact N; reflexivity]. }
  assert (PU := fun n H => piece_unique h A G i n 1 I H HA).
  destruct I as [u rg dk pc pt pn fr hd nx]. constructor.
  - intros x. rewrite EP, EDP. apply u.
  - intros j m. rewrite EP, EDP, EN. apply rg.
  - intros j Hj. rewrite ED in Hj. rewrite KS. apply dk. exact Hj.
  - intros j m Hj. destruct (Z.eq_dec j i) as [-> | N].
    + rewrite (PU m Hj). left. rewrite ES, zupd_same. split; [rewrite EK; exact K|]. split; [reflexivity|]. rewrite EF. exact SI.
    + apply (piece_frame h h' G); [apply pc; exact Hj | rewrite ES; apply zupd_other; exact N | | |].
      * intros x _. rewrite EF. reflexivity.
      * apply HP. left. exact N.
      * intros x Hx. apply HO. congruence.
  - intros c j Hj. rewrite KS. destruct (Z.eq_dec j i) as [-> | N].
    + destruct (Z.eq_dec c (sp_kind s')) as [-> | N2].
      * split; [exact HA|]. rewrite EK. auto.
      * apply HP in Hj; [|right; exact N2]. apply pt. exact Hj.
    + apply HP in Hj; [|left; exact N]. apply pt. exact Hj.
  - exact PND.
  - intros c x Hx. rewrite EF in Hx. rewrite KS. apply fr. exact Hx.
  - intros e He. apply HG in He. pose proof (hd e He) as W. destruct e as [[p sz] b]. unfold held_inv in *. rewrite ES.
    destruct (Z.eq_dec (span_of b) i) as [Eb | N]; [|rewrite zupd_other by exact N; exact W].
    rewrite Eb in *. rewrite zupd_same. destruct W as [W1 [W2 [W3 [n [W4 W5]]]]].
    split; [exact W1|]. split; [exact W2|]. split; [exact W3|]. exists n. split; [exact W4|].
    destruct W5 as [W5 | [W5 _]]; [|lia]. left. rewrite EK, EB, EAl. exact W5.
  - rewrite EN. exact nx.
Qed.

Lemma free_inv h A G1 p size b G2 own : inv h A (G1 ++ ((p, size), b) :: G2) ->
  exists A', inv (free h own p) A' (G1 ++ G2).
Proof.
  intros I. set (G := G1 ++ ((p, size), b) :: G2) in *.
  assert (HG : In ((p, size), b) G) by (unfold G; apply in_elt).
  pose proof (i_held _ _ _ I _ HG) as HB. unfold held_inv in HB. destruct HB as [S0 [Bp [Sp [n [HA HB]]]]].
  set (i := span_of b) in *. set (s := h_span h i) in *.
  assert (SUB : forall e, In e (G1 ++ G2) -> In e G).
  { intros e. unfold G. rewrite !in_app_iff. cbn [In]. tauto. }
  assert (OM : forall x, occ x (blocks G) = ((if (b =? x)%Z then 1 else 0) + occ x (blocks (G1 ++ G2)))%nat) by (intros x; unfold G; apply blocks_mid).
  assert (OO : forall x, span_of x <> i -> occ x (blocks (G1 ++ G2)) = occ x (blocks G)).
  { intros x Hx. rewrite OM. destruct (b =? x) eqn:E; [|reflexivity]. exfalso. apply Hx. unfold i. f_equal. lia. }
  pose proof (i_pieces _ _ _ I i n HA) as PI. unfold piece_inv in PI. cbv zeta in PI. fold s in PI.
  unfold free. rewrite Sp. cbv zeta. fold s.
  destruct (sp_kind s <? CLASSES) eqn:EK.
  - (* a block of a size class *)
    destruct PI as [[K [N1 P]] | [[P _] | [P _]]]; [|unfold K_LARGE, CLASSES in *; lia | unfold K_HUGE, CLASSES in *; lia].
    subst n.
    assert (EBo : block_of s i p = b) by (apply (block_of_ok h A G p size b I HG); fold i; fold s; lia).
    rewrite EBo. pose proof P as P0. destruct P0 as [a1 a2 a3 a4 a5 a6 a7 a8].
    destruct own.
    + (* by the owner *)
      unfold free_direct. fold s. cbv zeta.
      set (c := sp_kind s) in *.
      set (used := if full s then sp_cnt s else sp_used s).
      assert (EU : used = sp_limit s - Z.of_nat (length (sp_free s))).
      { unfold used, full in *. destruct (sp_free s) as [|f fs]; cbn [is_nil andb]; [|exact a4].
        destruct (sp_cnt s <=? sp_limit s) eqn:EF; [cbn [length]; lia | exact a4]. }
      set (s' := set_lists s (b :: sp_free s) (sp_limit s) (used - 1) (sp_lsize s) (sp_defer s)).
      set (h1 := if full s then hs_part h c (i :: h_part h c) else h).
      assert (H1 : h_span h1 = h_span h /\ h_free h1 = h_free h /\ h_pool h1 = h_pool h /\ h_defer h1 = h_defer h /\ h_next h1 = h_next h)
        by (unfold h1; destruct (full s); auto 6).
      destruct H1 as [e1 [e2 [e3 [e4 e5]]]].
      assert (IP : In i (h_part h1 c) /\ (forall c' j, j <> i \/ c' <> c -> (In j (h_part h1 c') <-> In j (h_part h c'))) /\ (forall c', NoDup (h_part h1 c'))).
      { unfold h1. destruct (full s) eqn:EF.
        - cbn [h_part hs_part]. split; [rewrite zupd_same; left; reflexivity|]. split.
          + intros c' j H. destruct (Z.eq_dec c' c) as [-> | N]; [|rewrite zupd_other by exact N; tauto].
            rewrite zupd_same. cbn [In]. split; [intros [-> | ?]; [destruct H; congruence | assumption] | tauto].
          + intros c'. destruct (Z.eq_dec c' c) as [-> | N]; [|rewrite zupd_other by exact N; apply (i_pnd _ _ _ I)].
            rewrite zupd_same. constructor; [|apply (i_pnd _ _ _ I)]. intros H. apply a8 in H. congruence.
        - split; [apply a8; reflexivity|]. split; [tauto | apply (i_pnd _ _ _ I)]. }
      destruct IP as [IP1 [IP2 IP3]].
      assert (I1 : inv (hs_span h1 i s') A (G1 ++ G2)).
      { apply (keep_piece h _ A i G _ s'); auto.
        - cbn [h_span hs_span]. rewrite e1. reflexivity.
        - cbn [h_part hs_span]. change (sp_kind s') with c. constructor; try assumption; try reflexivity.
          + cbn [sp_used sp_limit sp_free s' set_lists length]. lia.
          + intros x Hx. cbn [sp_free sp_defer s' set_lists]. unfold s'. rewrite isblk_lists. specialize (a6 x Hx). rewrite OM in a6. rewrite occ_cons. fold c. lia.
          + intros x. cbn [sp_free sp_defer s' set_lists In]. intros [[<- | H] | H]; [reflexivity | apply a7; tauto | apply a7; tauto].
          + split; [reflexivity | intros _; exact IP1]. }
      change (h_part (hs_span h1 i s')) with (h_part h1). change (h_pool (hs_span h1 i s')) with (h_pool h1).
      destruct (sp_used s' =? sp_lsize s') eqn:ER; [|exists A; exact I1].
      cbn [sp_used sp_lsize s' set_lists] in ER.
      (* all blocks are back: the span leaves *)
      apply in_split in HA. destruct HA as [A1 [A2 ->]]. exists (A1 ++ A2).
      assert (FULL : forall x, span_of x = i -> occ x (h_free h c) = 0%nat /\ occ x (blocks (G1 ++ G2)) = 0%nat).
      { assert (SI' : span_inv s' i (h_free h c) (h_part h1 c) (G1 ++ G2)).
        { pose proof (i_pieces _ _ _ I1 i 1 (in_elt _ _ _)) as PI. unfold piece_inv in PI. cbv zeta in PI. cbn [h_span hs_span h_free h_part] in PI.
          rewrite zupd_same in PI. change (sp_kind s') with c in PI. rewrite e2 in PI.
          destruct PI as [[_ [_ PI]] | [[PI _] | [PI _]]]; [exact PI | unfold K_LARGE, CLASSES in *; lia | unfold K_HUGE, CLASSES in *; lia]. }
        apply (lists_full s' i (h_free h c) (h_part h1 c) (G1 ++ G2)); [exact K | exact SI' |].
        cbn [sp_free sp_defer sp_limit s' set_lists length]. lia. }
      (* the step as the removal of a piece from the state before *)
      apply (remove_piece h _ A1 i 1 A2 G1 ((p, size), b) G2 I); auto.
      * intros j N. cbn [h_span hs_pool hs_part hs_span]. rewrite zupd_other by exact N. rewrite e1. reflexivity.
      * intros c' j. cbn [h_part hs_pool hs_part hs_span]. destruct (Z.eq_dec c' c) as [-> | N].
        -- rewrite zupd_same, remove_z_in by apply IP3. split; intros [H N]; (split; [|exact N]); apply (IP2 c j); auto.
        -- rewrite zupd_other by exact N. rewrite (IP2 c' j) by auto. split; [|tauto]. intros H. split; [exact H|]. intros ->.
           destruct (i_part _ _ _ I c' i H) as [_ [Q _]]. fold s in Q. fold c in Q. congruence.
      * intros c'. cbn [h_part hs_pool hs_part hs_span]. destruct (Z.eq_dec c' c) as [-> | N].
        -- rewrite zupd_same. apply remove_z_nodup, IP3.
        -- rewrite zupd_other by exact N. apply IP3.
      * intros c' x Hx Q. destruct (i_free _ _ _ I c' x Hx) as [_ [Q2 _]]. rewrite Q in Q2. fold s in Q2. fold c in Q2. subst c'.
        destruct (FULL x Q) as [Z0 _]. apply occ_in in Hx. lia.
      * intros x Hx. apply FULL. exact Hx.
      * intros u. cbn [h_pool hs_pool hs_part hs_span cnt]. unfold dpieces. cbn [h_defer hs_pool hs_part hs_span h_span]. rewrite e1, e3, e4.
        assert (NDf : ~ In i (h_defer h)) by (apply (not_deferred h _ G i 1 I); apply in_elt).
        rewrite (map_ext_in (fun j => (j, dlen (zupd (h_span h) i s' j))) (fun j => (j, dlen (h_span h j)))).
        -- lia.
        -- intros j Hj. rewrite zupd_other by (intros ->; contradiction). reflexivity.
      * intros j m. cbn [h_pool hs_pool hs_part hs_span]. unfold dpieces. cbn [h_defer hs_pool hs_part hs_span h_span]. rewrite e1, e3, e4.
        assert (NDf : ~ In i (h_defer h)) by (apply (not_deferred h _ G i 1 I); apply in_elt).
        rewrite (map_ext_in (fun j => (j, dlen (zupd (h_span h) i s' j))) (fun j => (j, dlen (h_span h j)))).
        -- cbn [In]. intros [[H | H] | H]; [injection H as <- <-; right; right; lia | tauto | tauto].
        -- intros k Hk. rewrite zupd_other by (intros ->; contradiction). reflexivity.
      * intros j. cbn [h_defer hs_pool hs_part hs_span]. rewrite e4. intros Hj. left. split; [exact Hj|]. intros ->.
        apply (not_deferred h _ G i 1 I (in_elt _ _ _)). exact Hj.
    + (* by another thread *)
      unfold free_deferred. fold s. cbv zeta. set (c := sp_kind s) in *.
      set (s' := set_lists s (sp_free s) (sp_limit s) (sp_used s) (sp_lsize s + 1) (b :: sp_defer s)).
      assert (SI' : span_inv s' i (h_free h c) (h_part h c) (G1 ++ G2)).
      { constructor; try assumption; try reflexivity.
        - cbn [sp_lsize sp_defer s' set_lists length]. lia.
        - intros x Hx. cbn [sp_free sp_defer s' set_lists]. unfold s'. rewrite isblk_lists. specialize (a6 x Hx). rewrite OM in a6. rewrite occ_cons. fold c. lia.
        - intros x. cbn [sp_free sp_defer s' set_lists In]. intros [H | [<- | H]]; [apply a7; tauto | reflexivity | apply a7; tauto]. }
      assert (I1 : inv (hs_span h i s') A (G1 ++ G2)).
      { apply (keep_piece h _ A i G _ s'); auto; try reflexivity. exact (i_pnd _ _ _ I). }
      change (h_defer (hs_span h i s')) with (h_defer h).
      destruct (sp_lsize s' =? sp_cnt s') eqn:ER; [|exists A; exact I1].
      cbn [sp_lsize sp_cnt s' set_lists] in ER.
      assert (FULL : forall x, span_of x = i -> occ x (h_free h c) = 0%nat /\ occ x (blocks (G1 ++ G2)) = 0%nat).
      { apply (lists_full s' i (h_free h c) (h_part h c) (G1 ++ G2)); [exact K | exact SI' |].
        cbn [sp_free sp_defer sp_limit s' set_lists length]. lia. }
      (* then the span has no list of its own and is not among the partial ones *)
      assert (NP : ~ In i (h_part h c)).
      { intros H. apply a8 in H. unfold full in H.
        assert (LIM : sp_limit s = sp_cnt s /\ sp_free s = []).
        { assert (LE : (length (sp_free s' ++ sp_defer s') <= Z.to_nat (sp_limit s))%nat).
          { rewrite <- (ar_len (base i + HEADER) (sp_bs s) (Z.to_nat (sp_limit s))).
            pose proof (class_facts c K) as [B1 _]. rewrite <- a1 in B1.
            apply NoDup_incl_length.
            - apply (NoDup_count_occ Z.eq_dec). intros y. destruct (Z.eq_dec (span_of y) i) as [E | E].
              + pose proof (si_occ _ _ _ _ _ SI' y E) as O. pose proof (isblk_le s' i y). fold (occ y (sp_free s' ++ sp_defer s')). rewrite occ_app. lia.
              + fold (occ y (sp_free s' ++ sp_defer s')). replace (occ y (sp_free s' ++ sp_defer s')) with 0%nat; [lia|]. symmetry. apply occ_notin.
                intros Hy. apply E. apply (si_in _ _ _ _ _ SI'). apply in_app_iff. exact Hy.
            - intros y Hy. assert (E : span_of y = i) by (apply (si_in _ _ _ _ _ SI'); apply in_app_iff; exact Hy).
              apply occ_in. rewrite occ_ar by lia. rewrite Z2Nat.id by lia.
              pose proof (si_occ _ _ _ _ _ SI' y E) as O. unfold s' in O. rewrite isblk_lists in O. fold s' in O. unfold isblk in O.
              apply occ_in in Hy. rewrite occ_app in Hy. lia. }
          rewrite app_length in LE. cbn [sp_free sp_defer s' set_lists length] in LE.
          destruct (sp_free s) as [|f fs]; cbn [length] in LE; [split; [lia | reflexivity] | exfalso; lia]. }
        destruct LIM as [L1 L2]. rewrite L2 in H. cbn [is_nil andb] in H. lia. }
      apply in_split in HA. destruct HA as [A1 [A2 ->]]. exists (A1 ++ A2).
      apply (remove_piece h _ A1 i 1 A2 G1 ((p, size), b) G2 I); auto.
      * intros j N. cbn [h_span hs_defer hs_span]. apply zupd_other. exact N.
      * intros c' j. cbn [h_part hs_defer hs_span]. split; [|tauto]. intros H. split; [exact H|]. intros ->.
        destruct (i_part _ _ _ I c' i H) as [_ [Q _]]. fold s in Q. fold c in Q. subst c'. contradiction.
      * exact (i_pnd _ _ _ I).
      * intros c' x Hx Q. destruct (i_free _ _ _ I c' x Hx) as [_ [Q2 _]]. rewrite Q in Q2. fold s in Q2. fold c in Q2. subst c'.
        destruct (FULL x Q) as [Z0 _]. apply occ_in in Hx. lia.
      * intros x Hx. apply FULL. exact Hx.
      * intros u. cbn [h_pool hs_defer hs_span cnt]. unfold dpieces. cbn [h_defer hs_defer hs_span h_span map cnt].
        assert (NDf : ~ In i (h_defer h)) by (apply (not_deferred h _ G i 1 I); apply in_elt).
        rewrite (map_ext_in (fun j => (j, dlen (zupd (h_span h) i s' j))) (fun j => (j, dlen (h_span h j)))).
        -- rewrite zupd_same. replace (dlen s') with 1; [lia|]. unfold dlen. change (sp_kind s') with c.
           destruct (c =? K_LARGE) eqn:Q; [unfold K_LARGE, CLASSES in *; lia | reflexivity].
        -- intros j Hj. rewrite zupd_other by (intros ->; contradiction). reflexivity.
      * intros j m. cbn [h_pool hs_defer hs_span]. unfold dpieces. cbn [h_defer hs_defer hs_span h_span map].
        assert (NDf : ~ In i (h_defer h)) by (apply (not_deferred h _ G i 1 I); apply in_elt).
        rewrite (map_ext_in (fun j => (j, dlen (zupd (h_span h) i s' j))) (fun j => (j, dlen (h_span h j)))).
        -- rewrite zupd_same. replace (dlen s') with 1; [|unfold dlen; change (sp_kind s') with c;
             destruct (c =? K_LARGE) eqn:Q; [unfold K_LARGE, CLASSES in *; lia | reflexivity]].
           cbn [In]. intros [H | [H | H]]; [tauto | injection H as <- <-; right; right; lia | tauto].
        -- intros k Hk. rewrite zupd_other by (intros ->; contradiction). reflexivity.
      * intros j. cbn [h_defer hs_defer hs_span h_span]. intros [<- | Hj].
        -- right. split; [reflexivity|]. left. rewrite zupd_same. change (sp_kind s') with c. lia.
        -- left. split; [exact Hj|]. intros ->. apply (not_deferred h _ G i 1 I (in_elt _ _ _)). exact Hj.
  - (* a run of spans or a huge block *)
    assert (RI : run_inv i G) by (destruct PI as [[K _] | [[_ [_ P]] | [_ P]]]; [lia | exact P | exact P]).
    assert (KB : sp_kind s = K_LARGE /\ sp_n s = n \/ sp_kind s = K_HUGE) by (destruct PI as [[K _] | [[? [? _]] | [? _]]]; [lia | left; auto | right; auto]).
    assert (NG : forall x, span_of x = i -> occ x (blocks (G1 ++ G2)) = 0%nat).
    { intros x Hx. pose proof (RI x Hx) as O. rewrite OM in O.
      destruct HB as [[HB _] | [_ [Eb _]]]; [lia|]. fold i in Eb.
      destruct (b =? x) eqn:E1; destruct (x =? base i + HEADER) eqn:E2; lia. }
    assert (R1 : 1 <= n) by (apply (i_range _ _ _ I i n); right; right; exact HA).
    assert (NDf : ~ In i (h_defer h)) by (apply (not_deferred h _ G i n I HA)).
    assert (NF : forall c x, In x (h_free h c) -> span_of x <> i).
    { intros c x Hx Q. destruct (i_free _ _ _ I c x Hx) as [_ [Q2 Q3]]. rewrite Q in Q2. fold s in Q2. lia. }
    assert (NPt : forall c j, In j (h_part h c) <-> In j (h_part h c) /\ j <> i).
    { intros c j. split; [|tauto]. intros H. split; [exact H|]. intros ->. destruct (i_part _ _ _ I c i H) as [_ [Q2 Q3]]. fold s in Q2. lia. }
    apply in_split in HA. destruct HA as [A1 [A2 ->]]. exists (A1 ++ A2).
    destruct own; cbn [negb].
    + destruct (sp_kind s =? K_LARGE) eqn:EL.
      * destruct KB as [[KB KN] | KB]; [|unfold K_HUGE, K_LARGE in *; lia]. rewrite KN.
        apply (remove_piece h _ A1 i n A2 G1 ((p, size), b) G2 I); auto; try reflexivity.
        -- exact (i_pnd _ _ _ I).
        -- intros u. cbn [h_pool hs_pool cnt]. change (dpieces (hs_pool h ((i, n) :: h_pool h))) with (dpieces h). lia.
        -- intros j m. cbn [h_pool hs_pool]. change (dpieces (hs_pool h ((i, n) :: h_pool h))) with (dpieces h).
           cbn [In]. intros [[H | H] | H]; [injection H as <- <-; right; right; lia | tauto | tauto].
        -- intros j Hj. left. split; [exact Hj|]. intros ->. contradiction.
      * apply (remove_piece h _ A1 i n A2 G1 ((p, size), b) G2 I); auto; try reflexivity.
        -- exact (i_pnd _ _ _ I).
        -- intros u. lia.
        -- intros j m. tauto.
        -- intros j Hj. left. split; [exact Hj|]. intros ->. contradiction.
    + assert (DL : 1 <= dlen s <= n).
      { unfold dlen. destruct KB as [[-> KN] | ->]; [rewrite Z.eqb_refl; lia|]. change (K_HUGE =? K_LARGE) with false. lia. }
      apply (remove_piece h _ A1 i n A2 G1 ((p, size), b) G2 I); auto; try reflexivity.
      * exact (i_pnd _ _ _ I).
      * intros u. cbn [h_pool hs_defer]. unfold dpieces. cbn [h_defer hs_defer h_span map cnt]. fold s.
        destruct (i <=? u) eqn:E1; destruct (u <? i + dlen s) eqn:E2; destruct (u <? i + n) eqn:E3; cbn; lia.
      * intros j m. cbn [h_pool hs_defer]. unfold dpieces. cbn [h_defer hs_defer h_span map]. fold s.
        cbn [In]. intros [H | [H | H]]; [tauto | injection H as <- <-; right; right; lia | tauto].
      * intros j. cbn [h_defer hs_defer h_span In]. intros [<- | Hj].
        -- right. split; [reflexivity|]. fold s. destruct KB as [[-> _] | ->]; auto.
        -- left. split; [exact Hj|]. intros ->. contradiction.
Qed.

(* ---- everything a program can get to ---- *)

Lemma inv0 : inv heap0 [] [].
Proof.
  constructor; cbn; try (intros; tauto); try (intros; lia). intros. constructor.
Qed.

Definition blocked (h : heap) (live : list (Z * Z)) : Prop := exists A G, inv h A G /\ map fst G = live.

Lemma blocked_free h l1 p size l2 own : blocked h (l1 ++ (p, size) :: l2) -> blocked (free h own p) (l1 ++ l2).
Proof.
  intros [A [G [I E]]]. apply map_eq_app in E. destruct E as [G1 [G2 [-> [<- E]]]].
  apply map_eq_cons in E. destruct E as [[[p' s'] b] [G3 [-> [E <-]]]]. cbn [fst] in E. injection E as -> ->.
  destruct (free_inv h A G1 p size b G3 own I) as [A' I']. exists A', (G1 ++ G3). split; [exact I' | apply map_app].
Qed.

(* the block an address lies in, and where it ends *)
Definition ends (h : heap) (A : list (Z * Z)) (b z : Z) : Prop :=
  exists n, In (span_of b, n) A /\
   ((sp_kind (h_span h (span_of b)) < CLASSES /\ z = b + sp_bs (h_span h (span_of b))) \/
    (CLASSES <= sp_kind (h_span h (span_of b)) /\ z = base (span_of b + n))).

Lemma held_ends h A G p size b : inv h A G -> In ((p, size), b) G -> exists z, ends h A b z /\ p + bytes size <= z /\ b + 16 <= z.
Proof.
  intros I H. pose proof (i_held _ _ _ I _ H) as HB. unfold held_inv in HB. destruct HB as [H1 [H2 [_ [n [HA HB]]]]].
  destruct HB as [[K [B1 _]] | [K [B1 [B2 _]]]].
  - exists (b + sp_bs (h_span h (span_of b))). split; [exists n; split; [exact HA | left; auto]|]. split; [exact B1|].
    destruct (held_block h A G p size b I H K) as [_ [_ [_ [K0 P]]]]. pose proof (class_facts _ (conj K0 K)) as [C1 _].
    rewrite (si_bs _ _ _ _ _ P). lia.
  - exists (base (span_of b + n)). split; [exists n; split; [exact HA | right; auto]|]. split; [exact B2|].
    pose proof (i_range _ _ _ I _ _ (or_intror (or_intror HA))). unfold base, HEADER, SPAN in *. lia.
Qed.

Lemma cnt_in2 u A i n j m : In (i, n) A -> In (j, m) A -> i <> j -> i <= u < i + n -> j <= u < j + m -> (2 <= cnt u A)%nat.
Proof.
  intros H1 H2 N U1 U2. apply in_split in H1. destruct H1 as [l1 [l2 ->]]. rewrite cnt_app. cbn [cnt].
  assert (C : (cnt u (l1 ++ l2) > 0)%nat).
  { apply (cnt_in u j m); [|exact U2]. apply in_app_iff in H2. apply in_app_iff. cbn [In] in H2. destruct H2 as [H2 | [H2 | H2]]; [tauto | congruence | tauto]. }
  rewrite cnt_app in C. destruct (i <=? u) eqn:E1; destruct (u <? i + n) eqn:E2; cbn; lia.
Qed.

Lemma ends_span h A G b z : inv h A G -> (exists p size, In ((p, size), b) G) -> ends h A b z ->
  exists n, In (span_of b, n) A /\ z <= base (span_of b + n) /\ base (span_of b) <= b.
Proof.
  intros I [p [size H]] [n [HA E]]. exists n. split; [exact HA|]. split; [|apply span_of_bounds].
  destruct E as [[K ->] | [_ ->]]; [|lia].
  destruct (held_block h A G p size b I H K) as [k [Hk [Eb [K0 P]]]]. pose proof (class_facts _ (conj K0 K)) as [C1 [C2 [C3 _]]].
  pose proof (si_limit _ _ _ _ _ P) as L. rewrite <- (si_bs _ _ _ _ _ P), <- (si_cnt _ _ _ _ _ P) in *.
  pose proof (i_range _ _ _ I _ _ (or_intror (or_intror HA))).
  rewrite Eb at 1. unfold base, HEADER, SPAN in *. nia.
Qed.

Lemma apart_spans h A G i n j m x y : inv h A G -> In (i, n) A -> In (j, m) A -> i <> j ->
  x <= base (i + n) -> base j <= y -> i < j -> x <= y.
Proof.
  intros I H1 H2 N Hx Hy L. destruct (Z.lt_ge_cases j (i + n)) as [Q | Q].
  - exfalso. pose proof (i_units _ _ _ I j) as U.
    pose proof (i_range _ _ _ I _ _ (or_intror (or_intror H2))).
    pose proof (cnt_in2 j A i n j m H1 H2 N ltac:(lia) ltac:(lia)). lia.
  - unfold base, SPAN in *. lia.
Qed.

Lemma apart_blocks h A G1 e G2 f z1 z2 : inv h A (G1 ++ e :: G2) -> In f (G1 ++ G2) ->
  ends h A (snd e) z1 -> ends h A (snd f) z2 -> z1 <= snd f \/ z2 <= snd e.
Proof.
  intros I Hf E1 E2. set (G := G1 ++ e :: G2) in *.
  assert (HE : In e G) by (unfold G; apply in_elt).
  assert (HF : In f G) by (unfold G; apply in_app_iff in Hf; apply in_app_iff; cbn [In]; tauto).
  destruct e as [[p1 s1] b1]. destruct f as [[p2 s2] b2]. cbn [snd] in *.
  destruct (ends_span h A G b1 z1 I (ex_intro _ p1 (ex_intro _ s1 HE)) E1) as [n1 [A1 [Z1 L1]]].
  destruct (ends_span h A G b2 z2 I (ex_intro _ p2 (ex_intro _ s2 HF)) E2) as [n2 [A2 [Z2 L2]]].
  destruct (Z.eq_dec (span_of b1) (span_of b2)) as [Es | Es].
  2:{ destruct (Z.lt_ge_cases (span_of b1) (span_of b2)).
      - left. apply (apart_spans h A G (span_of b1) n1 (span_of b2) n2); auto.
      - right. apply (apart_spans h A G (span_of b2) n2 (span_of b1) n1); auto. lia. }
  assert (NB : b1 <> b2).
  { intros ->. assert (O : (2 <= occ b2 (blocks G))%nat).
    { unfold G. rewrite blocks_mid. cbn [snd]. rewrite Z.eqb_refl. assert (occ b2 (blocks (G1 ++ G2)) > 0)%nat by (apply occ_in; apply (in_map snd) in Hf; exact Hf). lia. }
    pose proof (i_pieces _ _ _ I _ _ A2) as P. unfold piece_inv in P. cbv zeta in P.
    destruct P as [[K [_ P]] | [[K [_ P]] | [K P]]].
    - pose proof (si_occ _ _ _ _ _ P b2 eq_refl) as Q. pose proof (isblk_le (h_span h (span_of b2)) (span_of b2) b2). lia.
    - pose proof (P b2 eq_refl) as Q. destruct (b2 =? base (span_of b2) + HEADER); lia.
    - pose proof (P b2 eq_refl) as Q. destruct (b2 =? base (span_of b2) + HEADER); lia. }
  destruct E1 as [m1 [_ E1]]. destruct E2 as [m2 [_ E2]]. rewrite <- Es in E2.
  destruct E1 as [[K1 E1] | [K1 _]]; destruct E2 as [[K2 E2] | [K2 _]]; try lia.
  - destruct (held_block h A G p1 s1 b1 I HE K1) as [k1 [Hk1 [Eb1 [K0 P]]]].
    destruct (held_block h A G p2 s2 b2 I HF ltac:(rewrite <- Es; exact K1)) as [k2 [Hk2 [Eb2 _]]].
    rewrite <- Es in Eb2. set (s := h_span h (span_of b1)) in *. set (i := span_of b1) in *.
    pose proof (class_facts _ (conj K0 K1)) as [C1 _]. rewrite <- (si_bs _ _ _ _ _ P) in C1.
    assert (k1 <> k2) by (intros ->; congruence).
    rewrite E1, E2. destruct (Z.lt_ge_cases k1 k2); [left | right]; rewrite Eb1, Eb2; nia.
  - exfalso. apply NB.
    pose proof (i_held _ _ _ I _ HE) as HB. destruct HB as [_ [_ [_ [? [_ [[? _] | [_ [HB1 _]]]]]]]]; [lia|].
    pose proof (i_held _ _ _ I _ HF) as HB. destruct HB as [_ [_ [_ [? [_ [[? _] | [_ [HB2 _]]]]]]]]; [rewrite <- Es in *; lia|].
    congruence.
Qed.

Lemma apart_free h A G p size b c x z : inv h A G -> In ((p, size), b) G -> In x (h_free h c) -> ends h A b z -> z <= x \/ x + 16 <= b.
Proof.
  intros I HE Hx E. destruct (i_free _ _ _ I c x Hx) as [HA [HK HC]].
  destruct (ends_span h A G b z I (ex_intro _ p (ex_intro _ size HE)) E) as [n1 [A1 [Z1 L1]]].
  pose proof (i_pieces _ _ _ I _ _ HA) as P. unfold piece_inv in P. cbv zeta in P. rewrite HK in P.
  destruct P as [[_ [_ P]] | [[P _] | [P _]]]; [|unfold K_LARGE, CLASSES in *; lia | unfold K_HUGE, CLASSES in *; lia].
  set (i := span_of x) in *. set (s := h_span h i) in *.
  assert (KK : 0 <= sp_kind s < CLASSES) by lia.
  pose proof (class_facts _ KK) as [C1 [C2 [C3 _]]]. rewrite <- (si_bs _ _ _ _ _ P), <- (si_cnt _ _ _ _ _ P) in *.
  pose proof (si_limit _ _ _ _ _ P) as LM.
  pose proof (si_occ _ _ _ _ _ P x eq_refl) as O. assert (OX : (occ x (h_free h c) > 0)%nat) by (apply occ_in; exact Hx).
  destruct (isblk_pos _ _ _ _ _ x KK P ltac:(lia)) as [k [Hk Ex]].
  destruct (Z.eq_dec (span_of b) i) as [Es | Es].
  - destruct E as [m1 [_ [[K1 E] | [K1 _]]]]; [|rewrite Es in K1; fold s in K1; lia].
    destruct (held_block h A G p size b I HE K1) as [k1 [Hk1 [Eb1 _]]]. rewrite Es in E, Eb1, Hk1. fold s in E, Eb1, Hk1.
    assert (N : k <> k1).
    { intros ->. assert (XB : x = b) by lia. rewrite XB in O, OX. assert (occ b (blocks G) > 0)%nat by (apply occ_in; apply (in_map snd) in HE; exact HE).
      pose proof (isblk_le s i b). lia. }
    rewrite E. destruct (Z.lt_ge_cases k1 k); [left | right]; nia.
  - destruct (Z.lt_ge_cases (span_of b) i).
    + left. apply (apart_spans h A G (span_of b) n1 i 1); auto. apply span_of_bounds.
    + right. apply (apart_spans h A G i 1 (span_of b) n1); auto; [|lia].
      rewrite Ex. unfold base, HEADER, SPAN in *. nia.
Qed.

Lemma regroup_inv h A G G' : inv h A G -> (forall e, In e G' -> held_inv h A e) ->
  (forall x, occ x (blocks G') = occ x (blocks G)) -> inv h A G'.
Proof.
  intros [u rg dk pc pt pn fr hd nx] H O. constructor; auto.
  intros j m Hj. apply (piece_frame h h G); auto. reflexivity.
Qed.

Lemma block_at_ok h A G p size b : inv h A G -> In ((p, size), b) G -> block_at h p = b.
Proof.
  intros I H. pose proof (i_held _ _ _ I _ H) as HB. unfold held_inv in HB. destruct HB as [H1 [H2 [H3 [n [HA HB]]]]].
  unfold block_at. rewrite H3. cbv zeta. destruct HB as [[K [B1 _]] | [K [B1 _]]].
  - rewrite (proj2 (Z.ltb_lt _ _) K).
    destruct (held_block h A G p size b I H K) as [k [Hk [Eb [K0 P]]]]. pose proof (class_facts _ (conj K0 K)) as [C1 _].
    rewrite <- (si_bs _ _ _ _ _ P) in C1. set (i := span_of b) in *. set (s := h_span h i) in *.
    replace (p - (base i + HEADER)) with ((p - b) + k * sp_bs s) by lia.
    rewrite Z.div_add, Z.div_small by (unfold bytes in *; lia). lia.
  - rewrite (proj2 (Z.ltb_ge _ _) K). symmetry. exact B1.
Qed.

Lemma usable_ok h A G p size b z : inv h A G -> In ((p, size), b) G -> ends h A b z ->
  p + usable_size h p <= z /\ (size <= 2 ^ 43 -> size <= usable_size h p).
Proof.
  intros I H E. pose proof (i_held _ _ _ I _ H) as HB. unfold held_inv in HB. destruct HB as [H1 [H2 [H3 [n [HA HB]]]]].
  unfold usable_size. rewrite H3. cbv zeta. set (i := span_of b) in *. set (s := h_span h i) in *.
  destruct E as [n' [HA' E]]. fold i in HA', E. fold s in E.
  rewrite (piece_unique h A G i n' n I HA' HA) in E.
  destruct HB as [[K [B1 _]] | [K [B1 [B2 B3]]]].
  - rewrite (proj2 (Z.ltb_lt _ _) K). destruct E as [[_ ->] | [E _]]; [|lia].
    destruct (held_block h A G p size b I H K) as [k [Hk [Eb [K0 P]]]]. pose proof (class_facts _ (conj K0 K)) as [C1 _].
    rewrite <- (si_bs _ _ _ _ _ P) in C1. fold i in Eb, Hk, C1, P. fold s in Eb, Hk, C1, P.
    replace (p - (base i + HEADER)) with ((p - b) + k * sp_bs s) by lia.
    rewrite Z.mod_add, Z.mod_small by (unfold bytes in *; lia). unfold bytes in *. lia.
  - rewrite (proj2 (Z.ltb_ge _ _) K). destruct E as [[E _] | [_ ->]]; [lia|].
    pose proof (i_pieces _ _ _ I i n HA) as P. unfold piece_inv in P. cbv zeta in P. fold s in P.
    destruct P as [[Q _] | [[Q [N _]] | [Q _]]]; [lia | |].
    + rewrite Q, Z.eqb_refl, N. unfold bytes, base, SPAN in *. lia.
    + rewrite Q. change (K_HUGE =? K_LARGE) with false. cbv iota.
      destruct (B3 Q) as [pages [N1 [N2 [N3 [N4 N5]]]]]. rewrite N1.
      pose proof (Z.mod_le pages (2 ^ 32) N2 ltac:(lia)). pose proof (Z.mod_pos_bound pages (2 ^ 32) ltac:(lia)).
      split; [unfold base, PAGE, SPAN in *; lia|]. intros S. rewrite Z.mod_small by lia.
      pose proof (i_range _ _ _ I _ _ (or_intror (or_intror HA))).
      unfold bytes, base, HEADER, PAGE, SPAN in *. lia.
Qed.

(* ---- reallocation ---- *)

Lemma grown_ok old size : 0 <= old -> 0 <= size <= 2 ^ 62 -> size <= grown old size <= max_size.
Proof.
  intros O S. unfold grown. cbv zeta. unfold max_size.
  destruct (wrap64 (old + Z.shiftr old 2 + Z.shiftr old 3) <? size) eqn:E1; [lia|].
  destruct (old <? size) eqn:E2; [|lia].
  rewrite !Z.shiftr_div_pow2 in * by lia. unfold wrap64 in *.
  pose proof (Z.div_le_upper_bound old (2 ^ 2) old ltac:(lia) ltac:(lia)). pose proof (Z.div_le_upper_bound old (2 ^ 3) old ltac:(lia) ltac:(lia)).
  pose proof (Z.div_pos old (2 ^ 2) O ltac:(lia)). pose proof (Z.div_pos old (2 ^ 3) O ltac:(lia)).
  rewrite Z.mod_small in * by (clear E1; lia). lia.
Qed.

Lemma realloc_spans_ok size : 0 <= size <= 2 ^ 62 -> size + HEADER <= realloc_spans size * SPAN.
Proof.
  intros S. unfold realloc_spans. cbv zeta. unfold wrap64. rewrite Z.mod_small by (unfold HEADER; lia).
  rewrite Z.shiftr_div_pow2 by lia. set (t := size + HEADER) in *. assert (T : 0 <= t) by (unfold t, HEADER; lia).
  pose proof (Z.div_mod t (2 ^ 16) ltac:(lia)) as D. pose proof (Z.mod_pos_bound t (2 ^ 16) ltac:(lia)) as B.
  change (2 ^ 16) with SPAN in *.
  destruct (Z.land t (2 ^ 64 - SPAN - 1) =? 0) eqn:E; [|unfold SPAN in *; lia].
  assert (L : Z.land t (SPAN - 1) = 0).
  { replace (SPAN - 1) with (Z.land (2 ^ 64 - SPAN - 1) (SPAN - 1)) by reflexivity. rewrite Z.land_assoc.
    replace (Z.land t (2 ^ 64 - SPAN - 1)) with 0 by lia. reflexivity. }
  assert (M : Z.land t (SPAN - 1) = t mod SPAN) by (change SPAN with (2 ^ 16); apply land_mask; lia).
  lia.
Qed.

Lemma fits_held h A G p old b size : inv h A G -> In ((p, old), b) G -> 0 <= size <= 2 ^ 62 -> fits h p size = true ->
  held_inv h A ((b, size), b).
Proof.
  intros I H S F. pose proof (i_held _ _ _ I _ H) as HB. unfold held_inv in HB. destruct HB as [H1 [H2 [H3 [n [HA HB]]]]].
  unfold fits in F. rewrite H3 in F. cbv zeta in F. unfold held_inv. set (i := span_of b) in *. set (s := h_span h i) in *.
  split; [lia|]. split; [lia|]. split; [reflexivity|]. exists n. split; [exact HA|].
  destruct HB as [[K [B1 B2]] | [K [B1 [B2 B3]]]].
  - rewrite (proj2 (Z.ltb_lt _ _) K) in F. left. split; [exact K|]. split; [unfold bytes in *; lia|]. intros X. congruence.
  - rewrite (proj2 (Z.ltb_ge _ _) K) in F. right. split; [exact K|]. split; [exact B1|].
    pose proof (i_pieces _ _ _ I i n HA) as P. unfold piece_inv in P. cbv zeta in P. fold s in P.
    pose proof (i_range _ _ _ I _ _ (or_intror (or_intror HA))) as R.
    destruct P as [[Q _] | [[Q [N _]] | [Q _]]]; [lia | |].
    + rewrite Q, Z.eqb_refl, N in F. pose proof (realloc_spans_ok size S).
      split; [|intros X; rewrite Q in X; discriminate X].
      apply andb_true_iff in F. destruct F as [F _]. apply Z.leb_le in F.
      assert (realloc_spans size * SPAN <= n * SPAN) by (apply Z.mul_le_mono_nonneg_r; [unfold SPAN; lia | exact F]).
      unfold bytes, base, HEADER, SPAN in *. lia.
    + rewrite Q in F. change (K_HUGE =? K_LARGE) with false in F. cbv iota in F.
      destruct (B3 Q) as [pages [N1 [N2 [N3 [N4 N5]]]]].
      pose proof (Z.mod_le pages (2 ^ 32) N2 ltac:(lia)). pose proof (Z.mod_pos_bound pages (2 ^ 32) ltac:(lia)).
      apply andb_true_iff in F. destruct F as [F _]. apply Z.leb_le in F.
      pose proof (huge_pages_ok size ltac:(unfold max_size; lia)) as HG.
      split; [unfold bytes, base, HEADER, PAGE, SPAN in *; lia|].
      intros _. exists (sp_n s). rewrite N1 in *. rewrite Z.mod_mod by lia.
      split; [reflexivity|]. split; [lia|]. split; [unfold HEADER, PAGE in *; lia|]. split; [unfold PAGE, SPAN in *; lia | lia].
Qed.

Lemma alloc_shrink h A G q sz size : inv h A (((q, sz), q) :: G) -> 0 <= size <= sz -> sz <= max_size + 4096 ->
  sp_kind (h_span h (span_of q)) = class_of sz -> (MEDIUM_LIMIT < sz -> q = base (span_of q) + HEADER) ->
  (LARGE_LIMIT < sz -> sp_n (h_span h (span_of q)) = huge_pages sz mod 2 ^ 32 /\ In (span_of q, spans_of_pages (huge_pages sz)) A) ->
  (size <= 2 ^ 43 -> sz <= 2 ^ 43 + 2 ^ 42) ->
  inv h A (((q, size), q) :: G).
Proof.
  intros I S1 S2 Q2 Q3 Q4 SB. apply (relabel_inv h A G ((q, sz), q)); [exact I | reflexivity|].
  pose proof (i_held _ _ _ I _ (or_introl eq_refl)) as HB. unfold held_inv in *. destruct HB as [_ [_ [_ [n [HA HB]]]]].
  split; [lia|]. split; [lia|]. split; [reflexivity|]. exists n. split; [exact HA|].
  destruct HB as [[B1 [B2 B3]] | [B1 [B2 [B3 B4]]]].
  - left. split; [exact B1|]. split; [unfold bytes in *; lia | exact B3].
  - right. split; [exact B1|]. split; [exact B2|]. split; [unfold bytes in *; lia|].
    intros Hk.
    assert (LH : LARGE_LIMIT < sz).
    { rewrite Q2 in Hk. unfold class_of in Hk.
      destruct (sz <=? SMALL_LIMIT) eqn:F1; [destruct (small_class_ok sz ltac:(lia)) as [? _]; unfold K_HUGE, CLASSES in *; lia|].
      destruct (sz <=? MEDIUM_LIMIT) eqn:F2; [destruct (medium_class_ok sz ltac:(lia)) as [? _]; unfold K_HUGE, CLASSES in *; lia|].
      destruct (sz <=? LARGE_LIMIT) eqn:F3; [discriminate Hk | lia]. }
    destruct (Q4 LH) as [Q5 Q6]. rewrite (piece_unique h A _ _ _ _ I HA Q6).
    exists (huge_pages sz). split; [exact Q5|].
    pose proof (huge_pages_ok sz ltac:(lia)) as HG.
    assert (ML : MEDIUM_LIMIT < LARGE_LIMIT) by reflexivity.
    specialize (Q3 ltac:(lia)).
    pose proof (spans_of_pages_ok (huge_pages sz) ltac:(unfold LARGE_LIMIT, HEADER, PAGE, SPAN in *; lia)) as [_ SP2].
    split; [unfold LARGE_LIMIT, HEADER, PAGE, SPAN in *; lia|]. split; [unfold HEADER, PAGE in *; lia|].
    split; [exact SP2 | intros S3; specialize (SB S3); unfold HEADER, PAGE in *; lia].
Qed.

Lemma grown_near old size : 0 <= old -> 0 <= size <= 2 ^ 62 -> size <= 2 ^ 43 -> grown old size <= 2 ^ 43 + 2 ^ 42.
Proof.
  intros O S S3. unfold grown. cbv zeta.
  destruct (wrap64 (old + Z.shiftr old 2 + Z.shiftr old 3) <? size) eqn:E1; [lia|].
  destruct (old <? size) eqn:E2; [|lia].
  rewrite !Z.shiftr_div_pow2 in * by lia. unfold wrap64 in *.
  pose proof (Z.mul_div_le old (2 ^ 2) ltac:(lia)). pose proof (Z.mul_div_le old (2 ^ 3) ltac:(lia)).
  pose proof (Z.div_pos old (2 ^ 2) O ltac:(lia)). pose proof (Z.div_pos old (2 ^ 3) O ltac:(lia)).
  rewrite Z.mod_small by (clear E1; lia). lia.
Qed.

Lemma scribble_away m noise cells x : (forall c, In c cells -> x < c \/ c + 8 <= x) -> scribble m noise cells x = m x.
Proof.
  intros H. unfold scribble. destruct (existsb _ cells) eqn:E; [|reflexivity].
  apply existsb_exists in E. destruct E as [c [Hc E]]. specialize (H c Hc). lia.
Qed.
Lemma copy_away m d s n x : x < d \/ d + n <= x -> copy m d s n x = m x.
Proof. intros H. unfold copy. destruct (d <=? x) eqn:E1; destruct (x <? d + n) eqn:E2; cbn; try reflexivity. lia. Qed.
Lemma copy_in m d s n k : 0 <= k < n -> copy m d s n (d + k) = m (s + k).
Proof. intros H. unfold copy. destruct (d <=? d + k) eqn:E1; destruct (d + k <? d + n) eqn:E2; cbn; try lia. f_equal. lia. Qed.

Lemma free_links_away h A G p size b c x k : inv h A G -> In ((p, size), b) G -> 0 <= k < size -> In x (h_free h c) ->
  p + k < x \/ x + 8 <= p + k.
Proof.
  intros I H K Hx. destruct (held_ends h A G p size b I H) as [z [E [Z1 _]]].
  destruct (apart_free h A G p size b c x z I H Hx E) as [Q | Q].
  - left. unfold bytes in *. lia.
  - right. pose proof (i_held _ _ _ I _ H) as HB. unfold held_inv in HB. lia.
Qed.

Lemma blocked_split h l1 p size l2 : blocked h (l1 ++ (p, size) :: l2) ->
  exists A G1 b G2, inv h A (G1 ++ ((p, size), b) :: G2) /\ map fst G1 = l1 /\ map fst G2 = l2.
Proof.
  intros [A [G [I E]]]. apply map_eq_app in E. destruct E as [G1 [G2 [-> [<- E]]]].
  apply map_eq_cons in E. destruct E as [[[p' s'] b] [G3 [-> [E <-]]]]. cbn [fst] in E. injection E as -> ->.
  exists A, G1, b, G3. auto.
Qed.

Lemma in_map_fst (G : list held) p size : In (p, size) (map fst G) -> exists b, In ((p, size), b) G.
Proof. intros H. apply in_map_iff in H. destruct H as [[e b] [E H]]. cbn [fst] in E. subst e. exists b. exact H. Qed.

Lemma realloc_none h m noise p size ad src h' m' l1 old l2 :
  blocked h (l1 ++ (p, old) :: l2) -> 0 <= size <= 2 ^ 62 -> old <= 2 ^ 43 ->
  realloc h m noise p size ad src = (None, h', m') ->
  blocked h' (l1 ++ (p, old) :: l2) /\ kept m m' (l1 ++ (p, old) :: l2).
Proof.
  intros B S O X. destruct (blocked_split _ _ _ _ _ B) as [A [G1 [b [G2 [I [E1 E2]]]]]].
  set (G := G1 ++ ((p, old), b) :: G2) in *.
  assert (HG : In ((p, old), b) G) by (unfold G; apply in_elt).
  assert (EG : map fst G = l1 ++ (p, old) :: l2) by (unfold G; rewrite map_app; cbn [map fst]; congruence).
  unfold realloc in X. destruct (p =? 0) eqn:P0.
  { exfalso. pose proof (i_held _ _ _ I _ HG) as HB. unfold held_inv in HB. destruct HB as [_ [H2 [_ [n [HA _]]]]].
    pose proof (i_range _ _ _ I _ _ (or_intror (or_intror HA))). pose proof (span_of_bounds b). unfold base, SPAN in *. lia. }
  cbv zeta in X. destruct (fits h p size); [discriminate X|].
  destruct (held_ends h A G p old b I HG) as [z [EZ _]]. destruct (usable_ok h A G p old b z I HG EZ) as [_ U]. specialize (U O).
  assert (O0 : 0 <= old) by (pose proof (i_held _ _ _ I _ HG) as HB; unfold held_inv in HB; tauto).
  pose proof (grown_ok (usable_size h p) size ltac:(lia) S) as GR.
  destruct (alloc h (grown (usable_size h p) size) ad src) as [[q|] h1] eqn:EA; [discriminate X|].
  pose proof (alloc_inv h A G (grown (usable_size h p) size) ad src None h1 I ltac:(lia) EA) as Q. cbv iota in Q.
  injection X as <- <-. split; [exists A, G; auto|].
  intros r sz k Hr K. rewrite <- EG in Hr. apply in_map_fst in Hr. destruct Hr as [c Hr].
  apply scribble_away. intros x Hx. apply (free_links_away h1 A G r sz c _ x k Q Hr K Hx).
Qed.

Lemma realloc_some h m noise p size ad src q h' m' l1 old l2 :
  blocked h (l1 ++ (p, old) :: l2) -> 0 <= size <= 2 ^ 62 -> old <= 2 ^ 43 ->
  realloc h m noise p size ad src = (Some q, h', m') ->
  blocked h' ((q, size) :: l1 ++ l2) /\ kept m m' (l1 ++ l2) /\
  (forall k, 0 <= k < old -> k < size -> m' (q + k) = m (p + k)).
Proof.
  intros B S O X. destruct (blocked_split _ _ _ _ _ B) as [A [G1 [b [G2 [I [E1 E2]]]]]].
  set (G := G1 ++ ((p, old), b) :: G2) in *.
  assert (HG : In ((p, old), b) G) by (unfold G; apply in_elt).
  assert (EG : map fst (G1 ++ G2) = l1 ++ l2) by (rewrite map_app; congruence).
  assert (SUB : forall e, In e (G1 ++ G2) -> In e G).
  { intros e. unfold G. rewrite !in_app_iff. cbn [In]. tauto. }
  pose proof (i_held _ _ _ I _ HG) as HB. unfold held_inv in HB. destruct HB as [O0 [H2 [_ [n [HA _]]]]].
  unfold realloc in X. destruct (p =? 0) eqn:P0.
  { exfalso.
    pose proof (i_range _ _ _ I _ _ (or_intror (or_intror HA))). pose proof (span_of_bounds b). unfold base, SPAN in *. lia. }
  cbv zeta in X.
  destruct (held_ends h A G p old b I HG) as [z [EZ [Z1 Z2]]]. destruct (usable_ok h A G p old b z I HG EZ) as [UZ U]. specialize (U O).
  destruct (fits h p size) eqn:F.
  - rewrite (block_at_ok h A G p old b I HG) in X.
    pose proof (fits_held h A G p old b size I HG S F) as HH.
    assert (I' : inv h A (((b, size), b) :: G1 ++ G2)).
    { apply (regroup_inv h A G); [exact I | |].
      - intros e [<- | He]; [exact HH | apply (i_held _ _ _ I); apply SUB; exact He].
      - intros x. unfold G. rewrite blocks_cons, blocks_mid. reflexivity. }
    injection X as <- <- <-. split; [|split].
    + exists A, (((b, size), b) :: G1 ++ G2). split; [exact I'|]. cbn [map fst]. rewrite EG. reflexivity.
    + intros r sz k Hr K. destruct (p =? b) eqn:PB; [reflexivity|]. apply copy_away.
      rewrite <- EG in Hr. apply in_map_fst in Hr. destruct Hr as [c Hr].
      destruct (held_ends h A G r sz c I (SUB _ Hr)) as [z2 [EZ2 [Z3 _]]].
      pose proof (i_held _ _ _ I _ (SUB _ Hr)) as HB. unfold held_inv in HB. destruct HB as [_ [H2' _]].
      destruct (apart_blocks h A G1 ((p, old), b) G2 ((r, sz), c) z z2 I Hr EZ EZ2) as [Q | Q]; cbn [snd] in Q; unfold bytes in *; [right | left]; lia.
    + intros k K1 K2. destruct (p =? b) eqn:PB; [f_equal; lia|]. apply copy_in. lia.
  - pose proof (grown_ok (usable_size h p) size ltac:(lia) S) as GR. pose proof (grown_near (usable_size h p) size ltac:(lia) S) as GN.
    set (nsz := grown (usable_size h p) size) in *.
    destruct (alloc h nsz ad src) as [[q'|] h1] eqn:EA; [|discriminate X].
    destruct (alloc_inv h A G nsz ad src (Some q') h1 I ltac:(lia) EA) as [A' [Q1 [Q2 [Q3 Q4]]]].
    injection X as -> <- <-.
    assert (HG1 : In ((p, old), b) (((q, nsz), q) :: G)) by (right; exact HG).
    rewrite (block_at_ok h1 A' _ p old b Q1 HG1).
    destruct (held_ends h1 A' _ q nsz q Q1 (or_introl eq_refl)) as [zq [EQ [ZQ _]]].
    destruct (held_ends h1 A' _ p old b Q1 HG1) as [zb [EB [ZB1 ZB2]]].
    (* the new block, the old one and any other are apart *)
    assert (QB : zq <= b \/ zb <= q).
    { apply (apart_blocks h1 A' [] ((q, nsz), q) G ((p, old), b) zq zb Q1 HG EQ EB). }
    assert (QO : forall r sz c k, In ((r, sz), c) G -> 0 <= k < sz -> r + k < q \/ zq <= r + k).
    { intros r sz c k Hr K. destruct (held_ends h1 A' _ r sz c Q1 (or_intror Hr)) as [zr [ER [ZR _]]].
      pose proof (i_held _ _ _ I _ Hr) as HB. unfold held_inv in HB. destruct HB as [_ [H2' _]].
      pose proof (apart_blocks h1 A' [] ((q, nsz), q) G ((r, sz), c) zq zr Q1 Hr EQ ER) as AB. cbn [snd] in AB. unfold bytes in *. lia. }
    assert (BO : forall r sz c k, In ((r, sz), c) (G1 ++ G2) -> 0 <= k < sz -> r + k < b \/ zb <= r + k).
    { intros r sz c k Hr K. destruct (held_ends h1 A' _ r sz c Q1 (or_intror (SUB _ Hr))) as [zr [ER [ZR _]]].
      pose proof (i_held _ _ _ I _ (SUB _ Hr)) as HB. unfold held_inv in HB. destruct HB as [_ [H2' _]].
      pose proof (apart_blocks h1 A' (((q, nsz), q) :: G1) ((p, old), b) G2 ((r, sz), c) zb zr Q1 (or_intror Hr) EB ER) as AB.
      cbn [snd] in AB. unfold bytes in *. lia. }
    set (len := if usable_size h p <? nsz then usable_size h p else nsz).
    assert (LEN : len <= nsz /\ (forall k, k < old -> k < size -> k < len)).
    { unfold len. destruct (usable_size h p <? nsz) eqn:E; split; intros; lia. }
    split; [|split].
    + assert (Q5 : inv h1 A' (((q, size), q) :: G)) by (apply (alloc_shrink h1 A' G q nsz size Q1); auto; lia).
      destruct (free_inv h1 A' (((q, size), q) :: G1) p old b G2 true Q5) as [A'' Q6].
      exists A'', ((((q, size), q) :: G1) ++ G2). split; [exact Q6|]. cbn [app map fst]. rewrite EG. reflexivity.
    + intros r sz k Hr K. rewrite <- EG in Hr. apply in_map_fst in Hr. destruct Hr as [c Hr].
      rewrite scribble_away. 2:{ intros x [<- | []]. destruct (BO r sz c k Hr K); lia. }
      rewrite copy_away. 2:{ destruct (QO r sz c k (SUB _ Hr) K); unfold bytes in *; lia. }
      apply scribble_away. intros x Hx. apply (free_links_away h1 A' _ r sz c _ x k Q1 (or_intror (SUB _ Hr)) K Hx).
    + intros k K1 K2.
      assert (KQ : q + k < zq) by (unfold bytes in *; lia).
      rewrite scribble_away. 2:{ intros x [<- | []]. lia. }
      rewrite copy_in by (split; [lia | apply LEN; lia]).
      apply scribble_away. intros x Hx. apply (free_links_away h1 A' _ p old b _ x k Q1 HG1 K1 Hx).
Qed.

(* ---- what holds in every reachable state ---- *)

Lemma reach_inv h live : reach h live -> blocked h live.
Proof.
  intros R. induction R.
  - exists [], []. split; [exact inv0 | reflexivity].
  - destruct IHR as [A [G [I <-]]].
    destruct (alloc_inv h A G size ad src (Some p) h' I ltac:(lia) H0) as [A' [Q _]].
    exists A', (((p, size), p) :: G). split; [exact Q | reflexivity].
  - destruct IHR as [A [G [I <-]]].
    pose proof (alloc_inv h A G size ad src None h' I ltac:(lia) H0) as Q. exists A, G. split; [exact Q | reflexivity].
  - destruct IHR as [A [G [I <-]]].
    destruct (aligned_inv h A G al size ad src (Some p) h' I H H0 H1 H2) as [[A' [b Q]] _].
    exists A', (((p, size), b) :: G). split; [exact Q | reflexivity].
  - destruct IHR as [A [G [I <-]]].
    pose proof (aligned_inv h A G al size ad src None h' I H H0 H1 H2) as Q. exists A, G. split; [exact Q | reflexivity].
  - apply (blocked_free h l1 p size l2 own IHR).
  - apply (realloc_some h m noise p size ad src q h' m' l1 old l2 IHR H H0 H1).
  - apply (realloc_none h m noise p size ad src h' m' l1 old l2 IHR H H0 H1).
Qed.

Lemma live_apart h l1 e l2 f : reach h (l1 ++ e :: l2) -> In f (l1 ++ l2) -> apart e f.
Proof.
  intros R Hf. destruct e as [p size]. destruct f as [q sz].
  destruct (blocked_split _ _ _ _ _ (reach_inv _ _ R)) as [A [G1 [b [G2 [I [E1 E2]]]]]].
  assert (EG : map fst (G1 ++ G2) = l1 ++ l2) by (rewrite map_app; congruence).
  rewrite <- EG in Hf. apply in_map_fst in Hf. destruct Hf as [c Hf].
  assert (HF : In ((q, sz), c) (G1 ++ ((p, size), b) :: G2)) by (apply in_app_iff in Hf; apply in_app_iff; cbn [In]; tauto).
  assert (HE : In ((p, size), b) (G1 ++ ((p, size), b) :: G2)) by apply in_elt.
  destruct (held_ends _ _ _ p size b I HE) as [z1 [Z1 [L1 _]]].
  destruct (held_ends _ _ _ q sz c I HF) as [z2 [Z2 [L2 _]]].
  pose proof (i_held _ _ _ I _ HE) as B1. pose proof (i_held _ _ _ I _ HF) as B2. unfold held_inv in B1, B2.
  pose proof (apart_blocks _ _ G1 ((p, size), b) G2 ((q, sz), c) z1 z2 I Hf Z1 Z2) as Q. cbn [snd] in Q.
  unfold apart. cbn [fst snd]. lia.
Qed.

Lemma live_links h live p size c x : reach h live -> In (p, size) live -> In x (h_free h c) ->
  p + bytes size <= x \/ x + 8 <= p.
Proof.
  intros R H Hx. destruct (reach_inv _ _ R) as [A [G [I <-]]]. apply in_map_fst in H. destruct H as [b H].
  destruct (held_ends _ _ _ p size b I H) as [z [EZ [Z1 _]]].
  pose proof (i_held _ _ _ I _ H) as HB. unfold held_inv in HB.
  destruct (apart_free h A G p size b c x z I H Hx EZ); [left | right]; lia.
Qed.

Lemma live_usable h live p size : reach h live -> In (p, size) live -> size <= 2 ^ 43 -> size <= usable_size h p.
Proof.
  intros R H S. destruct (reach_inv _ _ R) as [A [G [I <-]]]. apply in_map_fst in H. destruct H as [b H].
  destruct (held_ends _ _ _ p size b I H) as [z [EZ _]]. apply (usable_ok h A G p size b z I H EZ). exact S.
Qed.

(* the bytes a program may count on by the usable size are its own *)
Lemma usable_apart h l1 p size l2 q sz : reach h (l1 ++ (p, size) :: l2) -> In (q, sz) (l1 ++ l2) ->
  p + usable_size h p <= q \/ q + bytes sz <= p.
Proof.
  intros R Hf. destruct (blocked_split _ _ _ _ _ (reach_inv _ _ R)) as [A [G1 [b [G2 [I [E1 E2]]]]]].
  assert (EG : map fst (G1 ++ G2) = l1 ++ l2) by (rewrite map_app; congruence).
  rewrite <- EG in Hf. apply in_map_fst in Hf. destruct Hf as [c Hf].
  assert (HF : In ((q, sz), c) (G1 ++ ((p, size), b) :: G2)) by (apply in_app_iff in Hf; apply in_app_iff; cbn [In]; tauto).
  assert (HE : In ((p, size), b) (G1 ++ ((p, size), b) :: G2)) by apply in_elt.
  destruct (held_ends _ _ _ p size b I HE) as [z1 [Z1 [L1 _]]].
  destruct (held_ends _ _ _ q sz c I HF) as [z2 [Z2 [L2 _]]].
  destruct (usable_ok _ _ _ p size b z1 I HE Z1) as [U _].
  pose proof (i_held _ _ _ I _ HE) as B1. pose proof (i_held _ _ _ I _ HF) as B2. unfold held_inv in B1, B2.
  pose proof (apart_blocks _ _ G1 ((p, size), b) G2 ((q, sz), c) z1 z2 I Hf Z1 Z2) as Q. cbn [snd] in Q. lia.
Qed.

Lemma alloc_holds h live size ad src p h' : reach h live -> 0 <= size <= 2 ^ 43 -> alloc h size ad src = (Some p, h') ->
  size <= usable_size h' p /\ p mod 16 = 0 /\ 0 < p.
Proof.
  intros R S X. assert (R' : reach h' ((p, size) :: live)) by (apply (reach_alloc h live size ad src h' p R); [unfold max_size; lia | exact X]).
  split; [apply (live_usable h' _ p size R' (or_introl eq_refl)); lia|].
  destruct (reach_inv _ _ R) as [A [G [I <-]]].
  destruct (alloc_inv h A G size ad src (Some p) h' I ltac:(unfold max_size; lia) X) as [A' [Q _]].
  split; [apply (alloc_mod16 h' A' _ p size p Q (or_introl eq_refl))|].
  pose proof (i_held _ _ _ Q _ (or_introl eq_refl)) as HB. unfold held_inv in HB. destruct HB as [_ [_ [_ [n [HA _]]]]].
  pose proof (i_range _ _ _ Q _ _ (or_intror (or_intror HA))). pose proof (span_of_bounds p). unfold base, SPAN in *. lia.
Qed.

Lemma calloc_holds h live num size ad src p h' : reach h live -> 0 <= num -> 0 <= size -> num * size <= 2 ^ 43 ->
  calloc h num size ad src = (Some p, h') -> num * size <= usable_size h' p /\ p mod 16 = 0 /\ 0 < p.
Proof.
  intros R N S P X. unfold calloc in X. unfold wrap64 in X. rewrite Z.mod_small in X by nia.
  apply (alloc_holds h live (num * size) ad src p h' R ltac:(nia) X).
Qed.

Lemma aligned_holds h live al size ad src p h' : reach h live -> 0 <= size <= 2 ^ 43 -> pow2 al -> al <= 4096 ->
  aligned_alloc h al size ad src = (Some p, h') -> size <= usable_size h' p /\ p mod al = 0.
Proof.
  intros R S P L X. assert (R' : reach h' ((p, size) :: live)) by (apply (reach_aligned h live al size ad src h' p R); auto; unfold max_size; lia).
  split; [apply (live_usable h' _ p size R' (or_introl eq_refl)); lia|].
  destruct (reach_inv _ _ R) as [A [G [I <-]]].
  apply (aligned_inv h A G al size ad src (Some p) h' I ltac:(unfold max_size; lia) P L X).
Qed.

(* the links the allocator writes while it serves a request, and in a block that is freed *)
Lemma alloc_kept h live size ad src r h' m noise c : reach h live -> 0 <= size <= max_size -> alloc h size ad src = (r, h') ->
  kept m (scribble m noise (h_free h' c)) live.
Proof.
  intros R S X p sz k H K.
  assert (R' : exists live', reach h' live' /\ forall e, In e live -> In e live').
  { destruct r as [q|].
    - exists ((q, size) :: live). split; [apply (reach_alloc h live size ad src h' q R S X) | intros; right; assumption].
    - exists live. split; [apply (reach_alloc_none h live size ad src h' R S X) | auto]. }
  destruct R' as [live' [R' SUB]]. apply scribble_away. intros x Hx.
  destruct (live_links h' live' p sz c x R' (SUB _ H) Hx); [left | right]; unfold bytes in *; lia.
Qed.

Lemma free_kept h l1 p size l2 m noise : reach h (l1 ++ (p, size) :: l2) -> kept m (scribble m noise [block_at h p]) (l1 ++ l2).
Proof.
  intros R q sz k H K. destruct (blocked_split _ _ _ _ _ (reach_inv _ _ R)) as [A [G1 [b [G2 [I [E1 E2]]]]]].
  assert (EG : map fst (G1 ++ G2) = l1 ++ l2) by (rewrite map_app; congruence).
  rewrite <- EG in H. apply in_map_fst in H. destruct H as [c H].
  assert (HF : In ((q, sz), c) (G1 ++ ((p, size), b) :: G2)) by (apply in_app_iff in H; apply in_app_iff; cbn [In]; tauto).
  assert (HE : In ((p, size), b) (G1 ++ ((p, size), b) :: G2)) by apply in_elt.
  rewrite (block_at_ok h A _ p size b I HE).
  destruct (held_ends _ _ _ p size b I HE) as [z1 [Z1 [_ L1]]].
  destruct (held_ends _ _ _ q sz c I HF) as [z2 [Z2 [L2 _]]].
  pose proof (i_held _ _ _ I _ HF) as B2. unfold held_inv in B2.
  pose proof (apart_blocks _ _ G1 ((p, size), b) G2 ((q, sz), c) z1 z2 I H Z1 Z2) as Q. cbn [snd] in Q.
  apply scribble_away. intros x [<- | []]. unfold bytes in *. lia.
Qed.

Lemma realloc_holds h l1 p old l2 m noise size ad src r h' m' :
  reach h (l1 ++ (p, old) :: l2) -> 0 <= size <= 2 ^ 62 -> old <= 2 ^ 43 -> realloc h m noise p size ad src = (r, h', m') ->
  match r with
  | Some q => (forall k, 0 <= k < old -> k < size -> m' (q + k) = m (p + k)) /\ kept m m' (l1 ++ l2)
      /\ (size <= 2 ^ 43 -> size <= usable_size h' q)
  | None => kept m m' (l1 ++ (p, old) :: l2)
  end.
Proof.
  intros R S O X. destruct r as [q|].
  - destruct (realloc_some h m noise p size ad src q h' m' l1 old l2 (reach_inv _ _ R) S O X) as [_ [K1 K2]].
    split; [exact K2|]. split; [exact K1|].
    intros S3. apply (live_usable h' ((q, size) :: l1 ++ l2) q size); [|left; reflexivity | exact S3].
    apply (reach_realloc h l1 p old l2 m noise size ad src q h' m' R S O X).
  - apply (realloc_none h m noise p size ad src h' m' l1 old l2 (reach_inv _ _ R) S O X).
Qed.

(* ---- alignments above the page size ---- *)

Definition map_ok (raw : nat -> Z) (al size : Z) (r : Z * Z * Z) : Prop :=
  let '(ptr, sp, pages) := r in
  ptr mod al = 0 /\ sp + HEADER <= ptr /\ ptr + size <= sp + pages * PAGE /\ sp mod SPAN = 0 /\ sp <= ptr < sp + SPAN /\
  (exists k, raw k <> 0 /\ raw k <= sp /\ sp + pages * PAGE <= raw k + pages * PAGE + SPAN).

Lemma align_up_ok x k : 0 <= k -> let al := 2 ^ k in
  let y := if Z.land x (al - 1) =? 0 then x else Z.ldiff x (al - 1) + al in
  y mod al = 0 /\ x <= y < x + al.
Proof.
  intros K. cbv zeta. pose proof (Z.pow_pos_nonneg 2 k ltac:(lia) K) as P.
  rewrite land_mask, ldiff_mask by exact K. pose proof (Z.mod_pos_bound x (2 ^ k) P) as B.
  destruct (x mod 2 ^ k =? 0) eqn:E; [split; lia|].
  pose proof (Z.div_mod x (2 ^ k) ltac:(lia)) as D. split; [|lia].
  replace (x - x mod 2 ^ k + 2 ^ k) with ((x / 2 ^ k + 1) * 2 ^ k) by lia. apply Z.mod_mul. lia.
Qed.

Lemma try_sound k (raw : nat -> Z) size limit : 0 <= k -> (forall j, 0 <= raw j) -> forall fuel j pages r,
  aligned_try fuel j raw (2 ^ k) size pages limit = Ok (Some r) -> map_ok raw (2 ^ k) size r.
Proof.
  intros K RW. induction fuel as [|fuel IH]; intros j pages r X; cbn [aligned_try] in X; [discriminate X|]. cbv zeta in X.
  destruct (raw j =? 0) eqn:E0; [discriminate X|].
  set (sp := mmap_os (pages * PAGE) (raw j)) in *.
  pose proof (align_up_ok (sp + HEADER) k K) as AU. cbv zeta in AU.
  set (ptr := if Z.land (sp + HEADER) (2 ^ k - 1) =? 0 then sp + HEADER else Z.ldiff (sp + HEADER) (2 ^ k - 1) + 2 ^ k) in *.
  destruct ((SPAN <=? ptr - sp) || (sp + pages * PAGE <? ptr + size) || negb (span_of ptr * SPAN =? sp)) eqn:EC.
  - destruct (limit <? pages + 1); [discriminate X|]. apply (IH _ _ _ X).
  - injection X as <-. apply orb_false_iff in EC. destruct EC as [EC E3]. apply orb_false_iff in EC. destruct EC as [E1 E2].
    apply negb_false_iff in E3. apply Z.eqb_eq in E3.
    unfold map_ok. destruct AU as [AU1 AU2]. split; [exact AU1|]. split; [lia|]. split; [lia|].
    split; [rewrite <- E3; apply Z.mod_mul; unfold SPAN; lia|]. split; [unfold HEADER in *; lia|].
    exists j. split; [lia|]. unfold sp, mmap_os. pose proof (Z.mod_pos_bound (raw j) SPAN ltac:(unfold SPAN; lia)).
    destruct (SPAN <=? pages * PAGE); lia.
Qed.

Lemma try_none k (raw : nat -> Z) size limit : forall fuel j pages,
  limit - pages < Z.of_nat fuel -> exists r, aligned_try (S fuel) j raw (2 ^ k) size pages limit = Ok r.
Proof.
  induction fuel as [|fuel IH]; intros j pages L.
  - cbn [aligned_try]. cbv zeta. destruct (raw j =? 0); [eexists; reflexivity|].
    match goal with |- context[if ?c then _ else _] => destruct c end; [|eexists; reflexivity].
    replace (limit <? pages + 1) with true by lia. eexists; reflexivity.
  - remember (S fuel) as f eqn:Ef. cbn [aligned_try]. cbv zeta. destruct (raw j =? 0); [eexists; reflexivity|].
    match goal with |- context[if ?c then _ else _] => destruct c end; [|eexists; reflexivity].
    destruct (limit <? pages + 1) eqn:EL; [eexists; reflexivity|]. subst f. apply IH. lia.
Qed.

Lemma try_total k (raw : nat -> Z) size need limit : 12 < k < 16 -> (forall j, 0 < raw j) -> 0 <= size ->
  SPAN <= need * PAGE -> 2 ^ k + size <= need * PAGE -> need <= limit -> forall fuel j pages,
  pages <= need -> need - pages < Z.of_nat fuel -> exists r, aligned_try fuel j raw (2 ^ k) size pages limit = Ok (Some r).
Proof.
  intros K RW S0 N1 N2 N3. induction fuel as [|fuel IH]; intros j pages P F; [lia|].
  cbn [aligned_try]. cbv zeta. specialize (RW j). replace (raw j =? 0) with false by lia.
  set (sp := mmap_os (pages * PAGE) (raw j)).
  pose proof (align_up_ok (sp + HEADER) k ltac:(lia)) as AU. cbv zeta in AU.
  set (ptr := if Z.land (sp + HEADER) (2 ^ k - 1) =? 0 then sp + HEADER else Z.ldiff (sp + HEADER) (2 ^ k - 1) + 2 ^ k) in *.
  destruct ((SPAN <=? ptr - sp) || (sp + pages * PAGE <? ptr + size) || negb (span_of ptr * SPAN =? sp)) eqn:EC; [|eexists; reflexivity].
  destruct (Z.eq_dec pages need) as [-> | NE].
  - exfalso.
    assert (EP : sp mod SPAN = 0).
    { unfold sp, mmap_os. replace (SPAN <=? need * PAGE) with true by lia.
      pose proof (Z.div_mod (raw j) SPAN ltac:(unfold SPAN; lia)) as D.
      replace (raw j + (SPAN - raw j mod SPAN)) with ((raw j / SPAN + 1) * SPAN) by lia. apply Z.mod_mul. unfold SPAN. lia. }
    assert (EK : sp mod 2 ^ k = 0) by (apply (div_pow sp k 16); [lia | lia | lia | exact EP]).
    assert (P13 : 2 ^ 13 <= 2 ^ k) by (apply Z.pow_le_mono_r; lia). assert (P15 : 2 ^ k <= 2 ^ 15) by (apply Z.pow_le_mono_r; lia).
    assert (PT : ptr = sp + 2 ^ k).
    { destruct AU as [A1 A2].
      pose proof (Z.div_mod sp (2 ^ k) ltac:(lia)) as D1. pose proof (Z.div_mod ptr (2 ^ k) ltac:(lia)) as D2.
      rewrite EK in D1. rewrite A1 in D2. unfold HEADER in A2.
      assert (ptr / 2 ^ k = sp / 2 ^ k + 1) by nia. nia. }
    assert (SO : span_of ptr * SPAN = sp).
    { unfold span_of. pose proof (Z.div_mod sp SPAN ltac:(unfold SPAN; lia)) as D1. rewrite EP in D1.
      rewrite PT. replace (sp + 2 ^ k) with (2 ^ k + sp / SPAN * SPAN) by lia. rewrite Z.div_add by (unfold SPAN; lia).
      rewrite Z.div_small by (unfold SPAN; lia). lia. }
    rewrite SO, Z.eqb_refl, PT in EC. cbn [negb] in EC. unfold SPAN in *. lia.
  - replace (limit <? pages + 1) with false by lia. apply IH; lia.
Qed.

Lemma map_holds al size raw fuel r : 4096 < al < 65536 -> pow2 al -> 0 <= size -> (forall j, 0 <= raw j) ->
  aligned_map fuel raw al size = Ok (Some r) -> map_ok raw al size r.
Proof.
  intros A [k [K ->]] S RW X. unfold aligned_map in X. destruct (negb _); [discriminate X|].
  destruct (SPAN <=? 2 ^ k); [discriminate X|]. cbv zeta in X. apply (try_sound k raw size _ K RW _ _ _ _ X).
Qed.

Lemma map_succeeds al size raw fuel : 4096 < al < 65536 -> pow2 al -> 0 <= size -> (forall j, 0 < raw j) ->
  size / PAGE + 16 < Z.of_nat fuel -> exists r, aligned_map fuel raw al size = Ok (Some r).
Proof.
  intros A [k [K ->]] S RW F.
  assert (K1 : 12 < k). { destruct (Z.lt_ge_cases 12 k) as [L | L]; [exact L|]. assert (2 ^ k <= 2 ^ 12) by (apply Z.pow_le_mono_r; lia). lia. }
  assert (K2 : k < 16). { destruct (Z.lt_ge_cases k 16) as [L | L]; [exact L|]. assert (2 ^ 16 <= 2 ^ k) by (apply Z.pow_le_mono_r; lia). lia. }
  assert (P15 : 2 ^ k <= 2 ^ 15) by (apply Z.pow_le_mono_r; lia).
  unfold aligned_map. rewrite land_mask, Z.mod_same by lia. cbn [Z.eqb negb]. replace (SPAN <=? 2 ^ k) with false by (unfold SPAN; lia). cbv zeta.
  change (PAGE - 1) with (2 ^ 12 - 1). rewrite land_mask by lia. change (2 ^ 12) with PAGE.
  pose proof (Z.div_mod size PAGE ltac:(unfold PAGE; lia)) as D. pose proof (Z.mod_pos_bound size PAGE ltac:(unfold PAGE; lia)) as B.
  pose proof (Z.div_mod (2 ^ k) PAGE ltac:(unfold PAGE; lia)) as D2. pose proof (Z.mod_pos_bound (2 ^ k) PAGE ltac:(unfold PAGE; lia)) as B2.
  pose proof (Z.div_pos size PAGE S ltac:(unfold PAGE; lia)).
  set (c := size / PAGE) in *. set (e := 2 ^ k / PAGE) in *.
  set (u := if size mod PAGE =? 0 then 0 else 1).
  assert (U : (size mod PAGE = 0 /\ u = 0) \/ u = 1) by (unfold u; destruct (size mod PAGE =? 0) eqn:E; [left | right]; lia).
  assert (U' : 0 <= u <= 1) by lia.
  set (p0 := if 1 + c + u <? e then 1 + e else 1 + c + u).
  assert (P0 : (1 + c + u < e /\ p0 = 1 + e) \/ (e <= 1 + c + u /\ p0 = 1 + c + u)) by (unfold p0; destruct (1 + c + u <? e) eqn:E; [left | right]; lia).
  assert (E8 : e <= 8) by (unfold PAGE in *; lia).
  change (SPAN / PAGE * 2) with 32.
  apply (try_total k raw size (Z.max p0 (Z.max 16 (8 + c + u))) (Z.max 32 (p0 * 2))); auto; unfold SPAN, PAGE in *; lia.
Qed.

Lemma map_refused al size raw fuel : 65536 <= al \/ (0 < al /\ ~ pow2 al) -> aligned_map fuel raw al size = Ok None.
Proof.
  intros H. unfold aligned_map. destruct (negb (Z.land al (al - 1) =? 0)) eqn:E; [reflexivity|].
  replace (SPAN <=? al) with true; [reflexivity|]. destruct H as [H | [H1 H2]]; [unfold SPAN; lia|].
  exfalso. apply H2. exists (Z.log2 al). split; [apply Z.log2_nonneg|].
  apply negb_false_iff in E. apply Z.eqb_eq in E.
  pose proof (Z.log2_spec al H1) as L. set (k := Z.log2 al) in *. assert (K : 0 <= k) by apply Z.log2_nonneg.
  destruct (Z.eq_dec al (2 ^ k)) as [Q | Q]; [exact Q|]. exfalso.
  assert (B1 : Z.testbit al k = true) by (apply Z.bit_log2; exact H1).
  assert (B2 : Z.testbit (al - 1) k = true).
  { assert (L2 : Z.log2 (al - 1) = k) by (apply Z.log2_unique; lia). rewrite <- L2. apply Z.bit_log2. pose proof (Z.pow_pos_nonneg 2 k). lia. }
  assert (B3 : Z.testbit (Z.land al (al - 1)) k = true) by (rewrite Z.land_spec, B1, B2; reflexivity).
  rewrite E, Z.bits_0 in B3. discriminate B3.
Qed.
