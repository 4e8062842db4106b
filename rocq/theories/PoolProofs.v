(* Specification and proofs for PoolModel. *)
From Verif Require Import Base PoolModel.
From Coq Require Import Permutation.

(* ---- specification ---- *)
Definition occ (x : nat) (l : list nat) : nat := count_occ Nat.eq_dec l x.
Definition even_share (idx l : list nat) : Prop := (forall x, In x l -> In x idx) /\ forall x y, In x idx -> In y idx -> occ x l <= occ y l + 1.

(* ---- C36 ---- *)
Lemma pick_ok idx c : idx <> [] -> exists x, pick idx c = Ok x /\ nth_error idx (c mod length idx) = Some x.
Proof.
  intros H. assert (L : c mod length idx < length idx) by (apply Nat.mod_upper_bound; destruct idx; [contradiction|discriminate]).
  destruct (nth_error idx (c mod length idx)) as [x|] eqn:E; [|apply nth_error_None in E; lia]. exists x. split; [exact (rd_ok _ _ _ E)|reflexivity].
Qed.
Lemma nodup_nth (l : list nat) i j x : NoDup l -> nth_error l i = Some x -> nth_error l j = Some x -> i = j.
Proof. intros N A B. rewrite NoDup_nth_error in N. apply N; [apply nth_error_Some; congruence|congruence]. Qed.
(* how often k of c0, c0+1, ..., c0+n-1 is i modulo m *)
Fixpoint hits (m i c0 n : nat) : nat := match n with 0 => 0 | S k => (if c0 mod m =? i then 1 else 0) + hits m i (S c0) k end.
Lemma hits_app m i a : forall c b, hits m i c (a + b) = hits m i c a + hits m i (c + a) b.
Proof.
  induction a as [|a IH]; intros c b; cbn [Nat.add hits]; [now rewrite Nat.add_0_r|]. rewrite IH. replace (S c + a) with (c + S a) by lia. lia.
Qed.
Lemma hits_le m i n : forall c, c <= i -> i < m -> c + n <= m -> hits m i c n = if (i <? c + n) then 1 else 0.
Proof.
  induction n as [|n IH]; intros c C I M; cbn [hits].
  - destruct (Nat.ltb_spec i (c + 0)); [lia|reflexivity].
  - destruct (Nat.eq_dec c i) as [->|NE].
    + rewrite Nat.mod_small, Nat.eqb_refl by lia. destruct (Nat.ltb_spec i (i + S n)); [|lia].
      assert (Z : forall k c', i < c' -> c' + k <= m -> hits m i c' k = 0).
      { induction k as [|k IHk]; intros c' A B; cbn [hits]; [reflexivity|]. rewrite Nat.mod_small by lia. destruct (Nat.eqb_spec c' i); [lia|]. rewrite IHk by lia. reflexivity. }
      rewrite Z by lia. reflexivity.
    + rewrite Nat.mod_small by lia. destruct (Nat.eqb_spec c i); [lia|]. rewrite IH by lia. replace (S c + n) with (c + S n) by lia. reflexivity.
Qed.
Lemma hits_shift m i n : 0 < m -> forall c, hits m i (c + m) n = hits m i c n.
Proof.
  intros M. induction n as [|n IH]; intros c; cbn [hits]; [reflexivity|].
  replace (S (c + m)) with (S c + m) by lia. rewrite IH. replace (c + m) with (c + 1 * m) by lia. rewrite Nat.mod_add by lia. reflexivity.
Qed.
(* a full turn hits every residue once *)
Lemma hits_turn m i c : 0 < m -> i < m -> hits m i c m = 1.
Proof.
  intros M I. induction c as [|c IH].
  - rewrite hits_le by lia. destruct (Nat.ltb_spec i (0 + m)); [reflexivity|lia].
  - pose proof (hits_app m i 1 c m) as A. pose proof (hits_app m i m c 1) as B. cbn [hits] in A, B. rewrite (Nat.add_comm m 1) in B. rewrite A in B.
    rewrite Nat.add_comm in B. replace (c + 1) with (S c) in B by lia. replace (c + m) with (c + 1 * m) in B by lia. rewrite Nat.mod_add in B by lia. lia.
Qed.
Lemma hits_short m i c n : 0 < m -> i < m -> n <= m -> hits m i c n <= 1.
Proof. intros M I N. pose proof (hits_app m i n c (m - n)) as A. replace (n + (m - n)) with m in A by lia. rewrite hits_turn in A by assumption. lia. Qed.
Lemma hits_bound m i n c : 0 < m -> i < m -> n / m <= hits m i c n <= n / m + 1.
Proof.
  intros M I. pose proof (Nat.div_mod n m ltac:(lia)) as D. pose proof (Nat.mod_upper_bound n m ltac:(lia)) as U.
  assert (T : forall k c', hits m i c' (m * k) = k).
  { induction k as [|k IH]; intros c'; [now rewrite Nat.mul_0_r|]. rewrite Nat.mul_succ_r, Nat.add_comm, hits_app, hits_turn, IH by assumption. lia. }
  assert (H : hits m i c n = n / m + hits m i (c + m * (n / m)) (n mod m)) by (rewrite D at 1; rewrite hits_app, T; reflexivity).
  pose proof (hits_short m i (c + m * (n / m)) (n mod m) M I ltac:(lia)). lia.
Qed.
Lemma starts_hits idx n : idx <> [] -> NoDup idx -> forall c, exists l, starts idx c n = Ok l /\ length l = n /\ (forall x, In x l -> In x idx) /\
  forall i x, nth_error idx i = Some x -> occ x l = hits (length idx) i c n.
Proof.
  intros NE ND. induction n as [|n IH]; intros c; cbn [starts].
  - exists []. split; [reflexivity|]. split; [reflexivity|]. split; [contradiction|]. reflexivity.
  - destruct (pick_ok idx c NE) as (y & -> & Y). cbn [bind]. destruct (IH (S c)) as (l & -> & L & IN & OC). cbn [bind]. exists (y :: l). split; [reflexivity|].
    split; [cbn; lia|]. split; [intros x [<-|H]; [eapply nth_error_In; eauto|auto]|]. intros i x H. unfold occ in *. cbn [count_occ hits]. rewrite (OC i x H).
    destruct (Nat.eq_dec y x) as [->|NX]; destruct (Nat.eqb_spec (c mod length idx) i) as [E|E]; try lia.
    + exfalso. apply E. eapply nodup_nth; eauto.
    + exfalso. apply NX. rewrite E in Y. congruence.
Qed.
Lemma even_distribution idx c n : idx <> [] -> NoDup idx -> exists l, starts idx c n = Ok l /\ length l = n /\ even_share idx l.
Proof.
  intros NE ND. destruct (starts_hits idx n NE ND c) as (l & R & L & IN & OC). exists l. split; [exact R|]. split; [exact L|]. split; [exact IN|].
  intros x y X Y. apply In_nth_error in X, Y. destruct X as (i & X), Y as (j & Y). rewrite (OC i x X), (OC j y Y).
  assert (i < length idx) by (apply nth_error_Some; congruence). assert (j < length idx) by (apply nth_error_Some; congruence).
  pose proof (hits_bound (length idx) i n c ltac:(lia) ltac:(lia)). pose proof (hits_bound (length idx) j n c ltac:(lia) ltac:(lia)). lia.
Qed.
(* after growing, the starts that follow are even over the larger pool *)
Lemma grown_even idx c n t m : idx <> [] -> NoDup (idx ++ [t]) -> exists l1 l2,
  grow_starts idx c (repeat PStart n ++ PGrow t :: repeat PStart m) = Ok (l1 ++ l2) /\ length l1 = n /\ length l2 = m /\
  even_share idx l1 /\ even_share (idx ++ [t]) l2.
Proof.
  intros NE ND.
  assert (ND1 : NoDup idx) by (apply NoDup_remove_1 in ND; now rewrite app_nil_r in ND).
  destruct (even_distribution idx c n NE ND1) as (l1 & E1 & L1 & S1).
  destruct (even_distribution (idx ++ [t]) (c + n) m) as (l2 & E2 & L2 & S2); auto; [now destruct idx|].
  exists l1, l2. split; [|exact (conj L1 (conj L2 (conj S1 S2)))].
  assert (T : forall i d k, grow_starts i d (repeat PStart k) = starts i d k).
  { intros i d k. revert d. induction k as [|k IH]; intros d; cbn [repeat grow_starts starts]; auto.
    destruct (pick i d); cbn [bind]; auto. now rewrite IH. }
  clear S1 S2 L2 ND ND1. revert c l1 E1 E2 L1. induction n as [|n IH]; intros c l1 E1 E2 L1; cbn [repeat app grow_starts starts] in *.
  - injection E1 as <-. rewrite T, Nat.add_0_r in *. exact E2.
  - destruct (pick idx c) as [x| | |]; cbn [bind] in *; try discriminate.
    destruct (starts idx (S c) n) as [r| | |] eqn:R; cbn [bind] in *; try discriminate. injection E1 as <-.
    rewrite (IH (S c) r); [reflexivity|auto|now rewrite Nat.add_succ_comm|]. cbn [length] in L1. lia.
Qed.
(* a pool that grows after n starts is uneven by n *)
Lemma growing_pool n a b : a <> b -> exists l, grow_starts [a] 0 (repeat PStart n ++ [PGrow b]) = Ok l /\ occ a l = n /\ occ b l = 0.
Proof.
  intros NE. assert (G : forall c, grow_starts [a] c (repeat PStart n ++ [PGrow b]) = Ok (repeat a n)).
  { induction n as [|n IH]; intros c; cbn [repeat app grow_starts]; [reflexivity|]. unfold pick. cbn [length]. rewrite Nat.mod_1_r. cbn. rewrite IH. reflexivity. }
  exists (repeat a n). split; [apply G|]. unfold occ. split.
  - clear G. induction n as [|n IH]; cbn; [reflexivity|]. destruct (Nat.eq_dec a a); [congruence|contradiction].
  - clear G. induction n as [|n IH]; cbn; [reflexivity|]. destruct (Nat.eq_dec a b); [contradiction|exact IH].
Qed.
(* n submitters that all read before any submits: one thread gets everything *)
Lemma crowded_futures n a b idx : a <> b -> exists l, frun (a :: b :: idx) 0 (fun _ => None) (map FRead (seq 0 n) ++ map FSubmit (seq 0 n)) = Ok l /\ l = repeat a n.
Proof.
  intros NE. eexists. split; [|reflexivity].
  assert (R : forall k s got tail, (forall j, j < s -> got j = Some a) -> exists got', frun (a :: b :: idx) 0 got (map FRead (seq s k) ++ tail) = frun (a :: b :: idx) 0 got' tail /\ forall j, j < s + k -> got' j = Some a).
  { induction k as [|k IH]; intros s got tail H; cbn [seq map app frun].
    - exists got. split; [reflexivity|]. intros j J. apply H. lia.
    - unfold pick. rewrite Nat.mod_0_l by discriminate. cbn [rd nth_error bind]. destruct (IH (S s) (fun y => if y =? s then Some a else got y) tail) as (g & E & G).
      + intros j J. destruct (Nat.eqb_spec j s); [reflexivity|]. apply H. lia.
      + exists g. split; [exact E|]. intros j J. apply G. lia. }
  assert (W : forall k s c got, (forall j, j < s + k -> got j = Some a) -> frun (a :: b :: idx) c got (map FSubmit (seq s k)) = Ok (repeat a k)).
  { induction k as [|k IH]; intros s c got H; cbn [seq map frun repeat]; [reflexivity|]. rewrite H by lia. rewrite IH; [reflexivity|]. intros j J. apply H. lia. }
  destruct (R n 0 (fun _ => None) (map FSubmit (seq 0 n))) as (g & -> & G); [lia|]. apply W. exact G.
Qed.
(* one submitter: read, submit, read, submit, ... is even *)
Lemma futures_even idx n w : idx <> [] -> forall c got, frun idx c got (concat (repeat [FRead w; FSubmit w] n)) = starts idx c n.
Proof.
  intros NE. induction n as [|n IH]; intros c got; cbn [repeat concat app frun starts]; [reflexivity|].
  destruct (pick_ok idx c NE) as (x & -> & _). cbn [bind]. rewrite Nat.eqb_refl. rewrite IH. reflexivity.
Qed.

(* ---- C37 ---- *)
Lemma poptask_snoc g x : poptask (g ++ [x]) = Ok (g, x).
Proof. unfold poptask. rewrite rev_app_distr. cbn. now rewrite rev_involutive. Qed.
Lemma popn_ok n : forall g, n <= length g -> popn n g = Ok (firstn (length g - n) g, rev (skipn (length g - n) g)).
Proof.
  induction n as [|n IH]; intros g L; cbn [popn].
  - rewrite Nat.sub_0_r, firstn_all, skipn_all. reflexivity.
  - destruct (exists_last (l := g)) as (g' & x & ->); [intros ->; cbn in L; lia|]. rewrite app_length in *. cbn [length] in *. rewrite poptask_snoc. cbn [bind fst snd].
    rewrite IH by lia. cbn [bind fst snd]. replace (length g' + 1 - S n) with (length g' - n) by lia. rewrite firstn_app, skipn_app.
    replace (length g' - n - length g') with 0 by lia. cbn [firstn skipn]. rewrite app_nil_r, rev_app_distr. reflexivity.
Qed.
Lemma popn_short n : forall g, length g < n -> popn n g = UB.
Proof.
  induction n as [|n IH]; intros g L; cbn [popn]; [lia|]. destruct g as [|y g0] eqn:EG; [reflexivity|]. rewrite <- EG in *. clear y g0 EG.
  assert (X : g = [] \/ g <> []) by (destruct g; [now left|now right]). destruct X as [->|X]; [reflexivity|].
  destruct (exists_last X) as (g' & x & ->). rewrite app_length in L. cbn in L. rewrite poptask_snoc. cbn [bind fst snd]. rewrite IH by lia. reflexivity.
Qed.
(* every task is posted to exactly one thread or left to the caller; each thread gets its share *)
Definition posted (threads share : nat) (g rest : list nat) (shares : list (list nat)) : Prop :=
  Permutation g (rest ++ concat shares) /\ length shares = threads /\ (forall s, In s shares -> length s = share) /\ exists t, g = rest ++ t.
Lemma post_ok threads share : forall g, threads * share <= length g -> exists rest shares, post threads share g = Ok (rest, shares) /\ posted threads share g rest shares.
Proof.
  induction threads as [|k IH]; intros g L; cbn [post].
  - exists g, []. split; [reflexivity|]. split; [cbn; now rewrite app_nil_r|]. split; [reflexivity|]. split; [contradiction|]. exists []. now rewrite app_nil_r.
  - cbn [Nat.mul] in L. rewrite popn_ok by lia. cbn [bind fst snd]. destruct (IH (firstn (length g - share) g)) as (rest & shares & -> & P & LS & SH & (t & T)); [rewrite firstn_length; lia|].
    cbn [bind fst snd]. exists rest, (rev (skipn (length g - share) g) :: shares). split; [reflexivity|]. split.
    + rewrite <- (firstn_skipn (length g - share) g) at 1. rewrite P. cbn [concat]. rewrite <- Permutation_rev. rewrite <- app_assoc. apply Permutation_app_head. apply Permutation_app_comm.
    + split; [cbn; congruence|]. split.
      * intros s [<-|H]; [rewrite rev_length, skipn_length; lia|auto].
      * exists (t ++ skipn (length g - share) g). rewrite app_assoc, <- T. symmetry. apply firstn_skipn.
Qed.
Lemma post_short threads share : forall g, length g < threads * share -> post threads share g = UB.
Proof.
  induction threads as [|k IH]; intros g L; cbn [post]; [lia|]. cbn [Nat.mul] in L. destruct (Nat.le_gt_cases share (length g)) as [H|H].
  - rewrite popn_ok by exact H. cbn [bind fst snd]. rewrite IH; [reflexivity|]. rewrite firstn_length. lia.
  - rewrite popn_short by exact H. reflexivity.
Qed.
Lemma posting threads capacity g : capacity <= length g -> exists rest shares, post_group threads capacity g = Ok (rest, shares) /\
  posted threads (capacity / (threads + 1)) g rest shares /\ length g = length rest + threads * (capacity / (threads + 1)).
Proof.
  intros L. pose proof (Nat.mul_div_le capacity (threads + 1) ltac:(lia)) as D.
  destruct (post_ok threads (capacity / (threads + 1)) g) as (rest & shares & R & P); [nia|]. exists rest, shares. split; [exact R|]. split; [exact P|].
  destruct P as (P & LS & SH & _). apply Permutation_length in P. rewrite P, app_length. f_equal. set (k := capacity / (threads + 1)) in *. clearbody k. rewrite <- LS. clear -SH.
  induction shares as [|s shares IH]; [reflexivity|]. cbn [concat length Nat.mul]. rewrite app_length, IH by (intros; apply SH; now right). rewrite (SH s) by now left. lia.
Qed.
Lemma posting_exact threads capacity g : (threads * (capacity / (threads + 1)) <= length g -> exists r, post_group threads capacity g = Ok r) /\
  (length g < threads * (capacity / (threads + 1)) -> post_group threads capacity g = UB).
Proof.
  split; intros H.
  - destruct (post_ok threads (capacity / (threads + 1)) g H) as (rest & shares & R & _). eauto.
  - now apply post_short.
Qed.

(* ---- waiting for a share ---- *)
Lemma share_one term j : forall fuel t n, term (t + n) j = true -> (forall k, k < n -> term (t + k) j = false) -> 2 * n + 3 <= fuel ->
  share_run term fuel t [j] = Ok (t + n, [(j, t + n)]).
Proof.
  unfold share_run. cbn [last]. intros fuel t n. revert fuel t. induction n as [|n IH]; intros fuel t T F L.
  - rewrite Nat.add_0_r in *. destruct fuel as [|[|[|f]]]; try lia. cbn. rewrite T. reflexivity.
  - destruct fuel as [|[|f]]; try lia. cbn [share_wait length Nat.ltb Nat.leb]. rewrite <- (Nat.add_0_r t), (F 0) by lia. rewrite Nat.add_0_r.
    replace (t + S n) with (S t + n) in * by lia. apply IH; [exact T| |lia]. intros k K. replace (S t + k) with (t + S k) by lia. apply F. lia.
Qed.
Lemma share_never term last_ : forall fuel t i jobs gone out, 2 <= length jobs \/ (gone = true /\ jobs <> []) -> forall r, share_wait term fuel t i jobs last_ gone out <> Ok r.
Proof.
  induction fuel as [|f IH]; intros t i jobs gone out H r; cbn [share_wait]; [discriminate|].
  destruct (Nat.ltb_spec i (length jobs)) as [L|L].
  - destruct gone; [discriminate|]. destruct H as [H|(H & _)]; [|discriminate]. destruct (term t last_).
    + apply IH. right. split; [reflexivity|]. intros E. apply (f_equal (@length nat)) in E. rewrite app_length, firstn_length, skipn_length in E. cbn in E. lia.
    + apply IH. now left.
  - destruct jobs as [|j jobs]; [destruct H as [H|(_ & H)]; [cbn in H; lia|contradiction]|]. apply IH. exact H.
Qed.
Lemma share_many_ub term jobs : 2 <= length jobs -> forall n t, term (t + n) (last jobs 0) = true -> (forall k, k < n -> term (t + k) (last jobs 0) = false) ->
  exists fuel, share_run term fuel t jobs = UB.
Proof.
  unfold share_run. set (l := last jobs 0). clearbody l. intros L n.
  assert (GONE : forall t i js out, js <> [] -> exists fuel, share_wait term fuel t i js l true out = UB).
  { intros t i js out NE. destruct (Nat.lt_ge_cases i (length js)) as [I|I].
    - exists 1. cbn [share_wait]. destruct (Nat.ltb_spec i (length js)); [reflexivity|lia].
    - exists 2. cbn [share_wait]. destruct (Nat.ltb_spec i (length js)); [lia|]. destruct js; [contradiction|]. reflexivity. }
  assert (MAIN : forall n t i out, term (t + n) l = true -> (forall k, k < n -> term (t + k) l = false) -> exists fuel, share_wait term fuel t i jobs l false out = UB).
  { clear n. induction n as [|n IH]; intros t i out T F.
    - rewrite Nat.add_0_r in T. assert (V : forall i, i < length jobs -> exists fuel, share_wait term fuel t i jobs l false out = UB).
      { intros i0 I. destruct (GONE t (S i0) (firstn i0 jobs ++ skipn (S i0) jobs) (out ++ [(l, t)])) as (f & E).
        - intros E. apply (f_equal (@length nat)) in E. rewrite app_length, firstn_length, skipn_length in E. cbn in E. lia.
        - exists (S f). cbn [share_wait]. destruct (Nat.ltb_spec i0 (length jobs)); [|lia]. rewrite T. exact E. }
      destruct (Nat.lt_ge_cases i (length jobs)) as [I|I]; [auto|]. destruct (V 0 ltac:(lia)) as (f & E). exists (S f). cbn [share_wait]. destruct (Nat.ltb_spec i (length jobs)); [lia|].
      destruct jobs; [cbn in L; lia|exact E].
    - assert (V : forall i, i < length jobs -> exists fuel, share_wait term fuel t i jobs l false out = UB).
      { intros i0 I. destruct (IH (S t) (S i0) out) as (f & E); [replace (S t + n) with (t + S n) by lia; exact T|intros k K; replace (S t + k) with (t + S k) by lia; apply F; lia|].
        exists (S f). cbn [share_wait]. destruct (Nat.ltb_spec i0 (length jobs)); [|lia]. pose proof (F 0 ltac:(lia)) as F0. rewrite Nat.add_0_r in F0. rewrite F0. exact E. }
      destruct (Nat.lt_ge_cases i (length jobs)) as [I|I]; [auto|]. destruct (V 0 ltac:(lia)) as (f & E). exists (S f). cbn [share_wait]. destruct (Nat.ltb_spec i (length jobs)); [lia|].
      destruct jobs; [cbn in L; lia|exact E]. }
  intros t T F. exact (MAIN n t 0 [] T F).
Qed.
Lemma share_many term jobs : 2 <= length jobs -> forall fuel t r, share_run term fuel t jobs <> Ok r.
Proof. intros L fuel t r. apply share_never. now left. Qed.

(* ---- go ---- *)
Lemma go_alone idx s : idx <> [] -> exists s' x, go false idx s = Ok (s', x) /\ In x idx /\ pick idx (gcount s) = Ok x /\ nth_error (tids s') (length (tids s)) = Some (Some x) /\ gcount s' = S (gcount s).
Proof.
  intros NE. unfold go. destruct (pick_ok idx (gcount s) NE) as (x & P & X). rewrite P. cbn [bind]. rewrite wr_ok by (rewrite app_length; cbn; lia). cbn [bind tids].
  unfold rd. rewrite set_nth_same by (rewrite app_length; cbn; lia). cbn [bind]. do 2 eexists. split; [reflexivity|]. split; [eapply nth_error_In; eauto|]. split; [reflexivity|].
  cbn. rewrite set_nth_same by (rewrite app_length; cbn; lia). auto.
Qed.
Lemma go_grouped idx s : go true idx s = UB.
Proof. unfold go. cbn [bind tids]. unfold rd. rewrite nth_error_app2 by lia. rewrite Nat.sub_diag. reflexivity. Qed.
