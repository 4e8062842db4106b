(* Proofs about one span shared between threads.
   Spec: `ev` reads off a step which block it gives to a caller, which block is freed, and when the span goes to the
   caches; `fair` is what the callers of an allocator rely on: a block given out is not already out, and a span goes to the
   caches only when none of its blocks is out. *)
From Coq Require Import Permutation.
From Verif Require Import Base DllModel RpConcModel.

Inductive event := Out (b : nat) | In_ (b : nat) | Back.
Definition ev (s : cs) (a : label) : list event :=
  match a with
  | LOwn => match own_pc s with A7 r => [Out r] | D5 => [Back] | _ => [] end
  | LFreeBy (S i) b => match thr_pc s (S i), who s b with TIdle, Some j => if Nat.eqb (S i) j then [In_ b] else [] | _, _ => [] end
  | LAlloc _ => match own_pc s, cls s with OIdle, b :: _ => [Out b] | _, _ => [] end
  | LFree b => match own_pc s, who s b with OIdle, Some 0 => [In_ b] | _, _ => [] end
  | LAdopt => match own_pc s with OIdle => map (fun _ => Back) (filter (Nat.eqb 0) (hdef s)) | _ => [] end
  | LReuse _ => match own_pc s, relsd s with OIdle, true => [Out 0] | _, _ => [] end
  | _ => []
  end.
Fixpoint history (cnt : nat) (s : cs) (l : list label) : list event :=
  match l with [] => [] | a :: r => ev s a ++ match cstep cnt s a with Ok s' => history cnt s' r | _ => [] end end.
(* the blocks that are out *)
Fixpoint fair (cnt : nat) (out : list nat) (h : list event) : Prop :=
  match h with
  | [] => True
  | Out b :: r => (b < cnt)%nat /\ ~ In b out /\ fair cnt (b :: out) r
  | In_ b :: r => In b out /\ fair cnt (remove Nat.eq_dec b out) r
  | Back :: r => out = [] /\ fair cnt out r
  end.

(* between taking the deferred list and putting it back: thread S i, or the owner *)
Definition inside (s : cs) (i : nat) : Prop :=
  match i with
  | O => match own_pc s with A4 _ | A5 _ | A6 _ | D4 _ => True | _ => False end
  | S i => match thr_pc s i with F1 _ _ | F2 _ _ _ => True | _ => False end
  end.
Definition idle (s : cs) : Prop := own_pc s = OIdle /\ forall i, thr_pc s i = TIdle.
(* where a block of the span can be when nobody is in a call *)
Inductive spot := Caller | ClassList | Deferred | FreeList | Fresh.
Definition is_at (s : cs) (b : nat) (w : spot) : Prop :=
  match w with
  | Caller => who s b <> None
  | ClassList => In b (cls s)
  | Deferred => exists l, dptr s = Some l /\ In b l
  | FreeList => exists l, sfree s = Some l /\ In b l
  | Fresh => (lim s <= b)%nat
  end.

(* ---------- invariant ---------- *)
Local Open Scope nat_scope.
Definition fl (p : tpc) : option nat := match p with F0 b | F1 b _ | F2 b _ _ => Some b | _ => None end.
Definition ob (p : opc) : option nat := match p with A2 b | A3 b | A4 b | A5 b | A6 b | A7 b | D1 b => Some b | _ => None end.
Definition tl (p : tpc) : option (list nat) := match p with F1 _ l | F2 _ l _ => Some l | _ => None end.
Definition ol (p : opc) : option (list nat) := match p with A4 _ | A5 _ | A6 _ => Some [] | D4 l => Some l | _ => None end.
Definition ext (p : tpc) : nat := match p with F2 _ _ _ => 1 | _ => 0 end.

Inductive place := PCls | PDef | PFree | PWho | PThr (i : nat) | POwn.
Definition at_ (s : cs) (D sf : list nat) (b : nat) (p : place) : Prop :=
  match p with
  | PCls => In b (cls s) | PDef => In b D | PFree => In b sf | PWho => who s b <> None
  | PThr i => fl (thr_pc s i) = Some b | POwn => ob (own_pc s) = Some b
  end.
Definition places (n : nat) (A : nat -> place -> Prop) : Prop :=
  (forall b p q, A b p -> A b q -> p = q) /\ (forall b p, A b p -> b < n) /\ (forall b, b < n -> exists p, A b p).

Definition lockst (s : cs) (D sf : list nat) : Prop :=
  match dptr s with
  | Some l => l = D /\ lsz s = length D /\ (forall i, tl (thr_pc s i) = None) /\ ol (own_pc s) = None
  | None =>
    (exists i, tl (thr_pc s i) = Some D /\ (forall j, tl (thr_pc s j) <> None -> j = i) /\ ol (own_pc s) = None
               /\ lsz s = length D + ext (thr_pc s i))
    \/ (ol (own_pc s) = Some D /\ (forall i, tl (thr_pc s i) = None)
        /\ lsz s = match own_pc s with A4 _ | A5 _ => length sf | _ => length D end)
  end.
Definition opst (cnt : nat) (s : cs) (sf : list nat) : Prop :=
  match own_pc s with
  | OIdle | D1 _ => part s = negb (match sf with [] => cnt <=? lim s | _ => false end)
  | A2 _ | A3 _ => part s = true /\ sf = []
  | A7 _ => part s = true
  | A4 _ | A5 _ | A6 _ => part s = true
  | D2 => part s = true /\ sf <> []
  | D3 => part s = true /\ sf <> [] /\ usd s = lsz s
  | D4 _ | D5 => part s = true /\ sf <> [] /\ usd s = lsz s /\ forall i, thr_pc s i = TIdle
  end.
Record Act (cnt : nat) (s : cs) (D sf : list nat) : Prop := {
  n_rel : relsd s = false;
  n_hdef : ~ In 0 (hdef s);
  n_sf : sfree s = Some sf;
  n_cls : NoDup (cls s); n_D : NoDup D; n_fr : NoDup sf;
  n_lim : lim s <= cnt;
  n_at : places (lim s) (at_ s D sf);
  n_thr : forall i, thr_pc s i = TIdle \/ fl (thr_pc s i) <> None;
  n_f2 : forall i b l a, thr_pc s i = F2 b l a -> a = Nat.eqb (lsz s) cnt;
  n_lock : lockst s D sf;
  n_usd : usd s + length sf = lim s + (match own_pc s with A4 _ => length sf | _ => 0 end);
  n_len : length D < cnt;
  n_op : opst cnt s sf }.

(* the span while it is handed back by thread i, while it waits in the heap's list, and in the caches *)
Record Quiet (cnt : nat) (s : cs) : Prop := {
  q_own : own_pc s = OIdle; q_who : forall b, who s b = None; q_cls : cls s = [];
  q_d : exists D, dptr s = Some D /\ (relsd s = false -> NoDup D /\ (forall b, In b D <-> b < cnt) /\ lim s = cnt) }.
Record Hand (cnt : nat) (s : cs) (i : nat) : Prop := {
  p_q : Quiet cnt s; p_rel : relsd s = false; p_hdef : ~ In 0 (hdef s); p_part : part s = false;
  p_thr : thr_pc s i = F3 \/ exists h, thr_pc s i = F4 h /\ sfree s = None;
  p_oth : forall j, j <> i -> thr_pc s j = TIdle }.
Record Waits (cnt : nat) (s : cs) : Prop := {
  h_q : Quiet cnt s; h_rel : relsd s = false; h_hdef : count_occ Nat.eq_dec (hdef s) 0 = 1; h_part : part s = false; h_sf : sfree s = None;
  h_thr : forall i, thr_pc s i = TIdle }.
Record Gone (cnt : nat) (s : cs) : Prop := {
  r_q : Quiet cnt s; r_rel : relsd s = true; r_hdef : ~ In 0 (hdef s); r_part : part s = false;
  r_thr : forall i, thr_pc s i = TIdle }.
Definition inv (cnt : nat) (s : cs) : Prop :=
  (exists D sf, Act cnt s D sf) \/ (exists i, Hand cnt s i) \/ Waits cnt s \/ Gone cnt s.

(* ---------- places ---------- *)
Lemma upd_eq {V} (f : nat -> V) k v x : upd f k v x = if Nat.eqb x k then v else f x. Proof. reflexivity. Qed.

(* every block keeps one place when places are renamed *)
Lemma places_map n A (A' : nat -> place -> Prop) (f : nat -> place -> place) :
  places n A -> (forall b p, A' b p <-> exists q, A b q /\ p = f b q) -> places n A'.
Proof.
  intros (Hf & Hl & He) E. repeat split.
  - intros b p q Hp Hq. apply E in Hp as (p' & Hp & ->). apply E in Hq as (q' & Hq & ->). now rewrite (Hf _ _ _ Hp Hq).
  - intros b p Hp. apply E in Hp as (p' & Hp & ->). eauto.
  - intros b Hb. destruct (He b Hb) as (p & Hp). exists (f b p). apply E. eauto.
Qed.
Lemma places_same n A (A' : nat -> place -> Prop) : places n A -> (forall b p, A' b p <-> A b p) -> places n A'.
Proof. intros HA E. apply (places_map n A A' (fun _ p => p) HA). intros b p. rewrite E. split; [eauto|intros (q & Hq & ->); exact Hq]. Qed.
(* one block moves *)
Lemma places_move n A (A' : nat -> place -> Prop) b0 p0 q0 :
  places n A -> A b0 p0 -> (forall b p, b <> b0 -> (A' b p <-> A b p)) -> (forall p, A' b0 p <-> p = q0) -> places n A'.
Proof.
  intros HA H0 Ho Hb. apply (places_map n A A' (fun b p => if Nat.eqb b b0 then q0 else p) HA).
  intros b p. destruct (Nat.eqb_spec b b0) as [->|Hn].
  - rewrite Hb. split; [intros ->; eauto|intros (q & _ & ->); reflexivity].
  - rewrite Ho by exact Hn. split; [eauto|intros (q & Hq & ->); exact Hq].
Qed.
(* new blocks *)
Lemma places_grow n m A (A' : nat -> place -> Prop) (g : nat -> place) :
  n <= m -> places n A -> (forall b p, A' b p <-> A b p \/ (n <= b < m /\ p = g b)) -> places m A'.
Proof.
  intros Hm (Hf & Hl & He) E. repeat split.
  - intros b p q Hp Hq. apply E in Hp. apply E in Hq. destruct Hp as [Hp|(Hp & ->)], Hq as [Hq|(Hq & ->)]; auto.
    + eauto.
    + apply Hl in Hp. lia.
    + apply Hl in Hq. lia.
  - intros b p Hp. apply E in Hp as [Hp|Hp]; [apply Hl in Hp; lia|lia].
  - intros b Hb. destruct (Nat.lt_ge_cases b n) as [Hn|Hn]; [destruct (He b Hn) as (p & Hp); exists p; apply E; auto|].
    exists (g b). apply E. right. split; [lia|reflexivity].
Qed.
Lemma pigeon (l : list nat) n : NoDup l -> (forall x, In x l -> x < n) -> n <= length l -> forall x, x < n -> In x l.
Proof.
  intros Hn Hl Hc x Hx. apply (NoDup_length_incl Hn (l' := seq 0 n)).
  - rewrite seq_length. exact Hc.
  - intros y Hy. apply in_seq. specialize (Hl y Hy). lia.
  - apply in_seq. lia.
Qed.
Lemma short (l : list nat) n : NoDup l -> (forall x, In x l -> x < n) -> length l <= n.
Proof.
  intros Hn Hl. rewrite <- (seq_length n 0). apply NoDup_incl_length; [exact Hn|]. intros y Hy. apply in_seq. specialize (Hl y Hy). lia.
Qed.
Lemma NoDup_app2 {V} (a b : list V) : NoDup a -> NoDup b -> (forall x, In x a -> In x b -> False) -> NoDup (a ++ b).
Proof.
  induction a as [|x a IH]; intros Ha Hb Hd; [exact Hb|]. inversion Ha as [|? ? Hx Ha']; subst. constructor.
  - rewrite in_app_iff. intros [Hi|Hi]; [contradiction|]. apply (Hd x); [left; reflexivity|exact Hi].
  - apply IH; auto. intros y Hy. apply Hd. right. exact Hy.
Qed.

(* ---------- what equal counts mean ---------- *)
Section Cnt.
Context (cnt : nat) (Hcnt : 0 < cnt).

Lemma n_two s D sf b p q : Act cnt s D sf -> at_ s D sf b p -> at_ s D sf b q -> p = q.
Proof. intros Hn. apply (proj1 (n_at _ _ _ _ Hn)). Qed.
Lemma n_low s D sf b p : Act cnt s D sf -> at_ s D sf b p -> b < lim s.
Proof. intros Hn. apply (proj1 (proj2 (n_at _ _ _ _ Hn))). Qed.
Lemma n_DF s D sf : Act cnt s D sf -> NoDup (D ++ sf).
Proof.
  intros Hn. apply NoDup_app2; [apply (n_D _ _ _ _ Hn)|apply (n_fr _ _ _ _ Hn)|]. intros x Hd Hf.
  discriminate (n_two s D sf x PDef PFree Hn Hd Hf).
Qed.
Lemma n_DF_lt s D sf : Act cnt s D sf -> forall x, In x (D ++ sf) -> x < lim s.
Proof. intros Hn x Hx. apply in_app_iff in Hx as [Hx|Hx]; [apply (n_low s D sf x PDef Hn Hx)|apply (n_low s D sf x PFree Hn Hx)]. Qed.

(* no block is elsewhere when the deferred and free lists have them all *)
Lemma tight s D sf : Act cnt s D sf -> lim s <= length D + length sf -> forall b p, at_ s D sf b p -> p = PDef \/ p = PFree.
Proof.
  intros Hn Hl b p Hp. assert (Hb := n_low _ _ _ _ _ Hn Hp).
  assert (Hi : In b (D ++ sf)). { apply (pigeon _ (lim s) (n_DF _ _ _ Hn) (n_DF_lt _ _ _ Hn)); [rewrite app_length; exact Hl|exact Hb]. }
  apply in_app_iff in Hi as [Hi|Hi]; [left; apply (n_two s D sf b p PDef Hn Hp Hi)|right; apply (n_two s D sf b p PFree Hn Hp Hi)].
Qed.
Lemma tight1 s D sf b0 i : Act cnt s D sf -> fl (thr_pc s i) = Some b0 -> lim s <= S (length D + length sf) ->
  forall b p, at_ s D sf b p -> p = PDef \/ p = PFree \/ (b = b0 /\ p = PThr i).
Proof.
  intros Hn H0 Hl b p Hp. assert (Hb := n_low _ _ _ _ _ Hn Hp).
  assert (Hi : In b (b0 :: D ++ sf)).
  { apply (pigeon _ (lim s)); [| |simpl; rewrite app_length; exact Hl|exact Hb].
    - constructor; [|apply (n_DF _ _ _ Hn)]. rewrite in_app_iff. intros [Hi|Hi].
      + discriminate (n_two s D sf b0 (PThr i) PDef Hn H0 Hi).
      + discriminate (n_two s D sf b0 (PThr i) PFree Hn H0 Hi).
    - intros x [<-|Hx]; [apply (n_low s D sf _ (PThr i) Hn H0)|apply (n_DF_lt _ _ _ Hn _ Hx)]. }
  destruct Hi as [<-|Hi]; [right; right; split; [reflexivity|]; apply (n_two s D sf b0 p (PThr i) Hn Hp H0)|].
  apply in_app_iff in Hi as [Hi|Hi]; [left; apply (n_two s D sf b p PDef Hn Hp Hi)|right; left; apply (n_two s D sf b p PFree Hn Hp Hi)].
Qed.
(* so far never more in the lists than linked *)
Lemma n_sum s D sf : Act cnt s D sf -> length D + length sf <= lim s.
Proof. intros Hn. rewrite <- app_length. apply short; [apply (n_DF _ _ _ Hn)|apply (n_DF_lt _ _ _ Hn)]. Qed.
Lemma n_sum1 s D sf b i : Act cnt s D sf -> fl (thr_pc s i) = Some b -> length D + length sf < lim s.
Proof.
  intros Hn Hb. destruct (Nat.lt_ge_cases (length D + length sf) (lim s)) as [Hl|Hl]; [exact Hl|].
  destruct (tight s D sf Hn Hl b (PThr i) Hb) as [Hx|Hx]; discriminate Hx.
Qed.
Lemma n_sum_own s D sf b : Act cnt s D sf -> ob (own_pc s) = Some b -> length D + length sf < lim s.
Proof.
  intros Hn Hb. destruct (Nat.lt_ge_cases (length D + length sf) (lim s)) as [Hl|Hl]; [exact Hl|].
  destruct (tight s D sf Hn Hl b POwn Hb) as [Hx|Hx]; discriminate Hx.
Qed.
Lemma n_sum_own1 s D sf b c i : Act cnt s D sf -> ob (own_pc s) = Some b -> fl (thr_pc s i) = Some c -> S (length D + length sf) < lim s.
Proof.
  intros Hn Hb Hc. destruct (Nat.lt_ge_cases (S (length D + length sf)) (lim s)) as [Hl|Hl]; [exact Hl|].
  destruct (tight1 s D sf c i Hn Hc Hl b POwn Hb) as [Hx|[Hx|[_ Hx]]]; discriminate Hx.
Qed.

(* ---------- steps while the span is in use ---------- *)
Ltac flds := cbn [set_dptr set_lsz set_sfree set_lim set_usd set_part set_cls set_relsd set_hdef set_who set_own set_thr
                  dptr lsz sfree lim usd part cls relsd hdef who own_pc thr_pc].
Ltac ueq := rewrite ?upd_eq in *; repeat match goal with
  | |- context [Nat.eqb ?x ?y] => destruct (Nat.eqb_spec x y)
  | Hx : context [Nat.eqb ?x ?y] |- _ => destruct (Nat.eqb_spec x y) end.

Lemma act_F0 s D sf i b l : Act cnt s D sf -> thr_pc s i = F0 b -> dptr s = Some l ->
  Act cnt (set_thr (set_dptr s None) i (F1 b l)) D sf.
Proof.
  intros Hn Hi Hl. pose proof Hn as [Hr Hh Hs Hc HD Hf Hm Ha Ht H2 Hk Hu He Ho].
  unfold lockst in Hk. rewrite Hl in Hk. destruct Hk as (-> & Hz & Htl & Hol).
  constructor; flds; try assumption.
  - apply (places_same _ _ _ Ha). intros x p. destruct p as [| | | |j|]; unfold at_; flds; try reflexivity.
    rewrite upd_eq. destruct (Nat.eqb_spec j i) as [->|_]; [rewrite Hi|]; reflexivity.
  - intros j. rewrite upd_eq. destruct (Nat.eqb_spec j i) as [_|_]; [right; discriminate|apply Ht].
  - intros j c d a. rewrite upd_eq. destruct (Nat.eqb_spec j i) as [_|_]; [discriminate|apply H2].
  - unfold lockst. flds. left. exists i. rewrite upd_eq, Nat.eqb_refl. split; [reflexivity|]. split; [|split; [exact Hol|cbn; lia]].
    intros j. rewrite upd_eq. destruct (Nat.eqb_spec j i) as [E|_]; [intros _; exact E|]. rewrite Htl. congruence.
  - unfold opst in *. flds. destruct (own_pc s); try exact Ho.
    all: destruct Ho as (_ & _ & _ & Ho); rewrite Ho in Hi; discriminate Hi.
Qed.
Lemma act_lock s D sf i l : Act cnt s D sf -> tl (thr_pc s i) = Some l ->
  l = D /\ dptr s = None /\ (forall j, tl (thr_pc s j) <> None -> j = i) /\ ol (own_pc s) = None /\ lsz s = length D + ext (thr_pc s i).
Proof.
  intros Hn Hi. pose proof (n_lock _ _ _ _ Hn) as Hk. unfold lockst in Hk. destruct (dptr s) as [d|].
  - destruct Hk as (_ & _ & Hk & _). rewrite Hk in Hi. discriminate Hi.
  - destruct Hk as [(k & Hk & Hj & Ho & Hz)|(_ & Hk & _)]; [|rewrite Hk in Hi; discriminate Hi].
    assert (i = k) as -> by (apply Hj; rewrite Hi; discriminate). rewrite Hk in Hi. injection Hi as ->. auto.
Qed.
Lemma act_F1 s D sf i b l : Act cnt s D sf -> thr_pc s i = F1 b l ->
  Act cnt (set_thr (set_lsz s (S (lsz s))) i (F2 b l (Nat.eqb (S (lsz s)) cnt))) D sf.
Proof.
  intros Hn Hi. pose proof Hn as [Hr Hh Hs Hc HD Hf Hm Ha Ht H2 Hk Hu He Ho].
  destruct (act_lock s D sf i l Hn) as (-> & Hd & Hj & Hol & Hz); [rewrite Hi; reflexivity|]. rewrite Hi in Hz. cbn in Hz.
  assert (Hb : fl (thr_pc s i) = Some b) by (rewrite Hi; reflexivity).
  constructor; flds; try assumption.
  - apply (places_same _ _ _ Ha). intros x p. destruct p as [| | | |j|]; unfold at_; flds; try reflexivity.
    rewrite upd_eq. destruct (Nat.eqb_spec j i) as [->|_]; [rewrite Hi|]; reflexivity.
  - intros j. rewrite upd_eq. destruct (Nat.eqb_spec j i) as [_|_]; [right; discriminate|apply Ht].
  - intros j c d a. rewrite upd_eq. destruct (Nat.eqb_spec j i) as [_|Hne]; [congruence|]. intros Hx. exfalso. apply Hne, Hj. rewrite Hx. discriminate.
  - unfold lockst. flds. rewrite Hd. left. exists i. rewrite upd_eq, Nat.eqb_refl. split; [reflexivity|]. split; [|split; [exact Hol|cbn; lia]].
    intros j. rewrite upd_eq. destruct (Nat.eqb_spec j i) as [E|_]; [intros _; exact E|]. apply Hj.
  - unfold opst in *. flds. pose proof (n_sum1 s D sf b i Hn Hb) as Hs1. destruct (own_pc s); try exact Ho.
    + exfalso. destruct Ho as (_ & _ & Ho). lia.
    + destruct Ho as (_ & _ & _ & Ho); rewrite Ho in Hi; discriminate Hi.
    + destruct Ho as (_ & _ & _ & Ho); rewrite Ho in Hi; discriminate Hi.
Qed.
Lemma act_F2 s D sf i b l : Act cnt s D sf -> thr_pc s i = F2 b l false ->
  Act cnt (set_thr (set_dptr s (Some (b :: l))) i TIdle) (b :: D) sf.
Proof.
  intros Hn Hi. pose proof Hn as [Hr Hh Hs Hc HD Hf Hm Ha Ht H2 Hk Hu He Ho].
  destruct (act_lock s D sf i l Hn) as (-> & Hd & Hj & Hol & Hz); [rewrite Hi; reflexivity|]. rewrite Hi in Hz. cbn in Hz.
  assert (Hb : fl (thr_pc s i) = Some b) by (rewrite Hi; reflexivity).
  pose proof (n_sum1 s D sf b i Hn Hb) as Hs1.
  assert (HbD : ~ In b D) by (intros Hx; discriminate (n_two s D sf b (PThr i) PDef Hn Hb Hx)).
  assert (Hnc : lsz s <> cnt). { pose proof (H2 _ _ _ _ Hi) as Hx. symmetry in Hx. apply Nat.eqb_neq in Hx. exact Hx. }
  constructor; flds; try assumption.
  - constructor; assumption.
  - apply (places_move _ _ _ b (PThr i) PDef Ha Hb).
    + intros x p Hx. destruct p as [| | | |j|]; unfold at_; flds; try reflexivity.
      * cbn. intuition congruence.
      * rewrite upd_eq. destruct (Nat.eqb_spec j i) as [->|_]; [rewrite Hi; cbn; split; congruence|reflexivity].
    + intros p. split; [|intros ->; left; reflexivity]. intros Hp.
      assert (Hq : p <> PDef -> at_ s D sf b p /\ p <> PThr i).
      { intros Hne. destruct p as [| | | |j|]; unfold at_ in *; revert Hp; flds; intros Hp; try (split; [exact Hp|discriminate]); [congruence|].
        rewrite upd_eq in Hp. destruct (Nat.eqb_spec j i) as [->|E]; [discriminate|]. split; [exact Hp|congruence]. }
      destruct p as [| | | |j|]; try reflexivity; exfalso; destruct Hq as (Hq1 & Hq2); try discriminate;
        apply Hq2, (n_two s D sf b _ (PThr i) Hn Hq1 Hb).
  - intros j. rewrite upd_eq. destruct (Nat.eqb_spec j i) as [_|_]; [left; reflexivity|apply Ht].
  - intros j c d a. rewrite upd_eq. destruct (Nat.eqb_spec j i) as [_|_]; [discriminate|apply H2].
  - unfold lockst. flds. split; [reflexivity|]. split; [cbn; lia|]. split; [|exact Hol].
    intros j. rewrite upd_eq. destruct (Nat.eqb_spec j i) as [_|Hne]; [reflexivity|].
    destruct (tl (thr_pc s j)) eqn:E; [|reflexivity]. exfalso. apply Hne, Hj. rewrite E. discriminate.
  - cbn. lia.
  - unfold opst in *. flds. destruct (own_pc s); try exact Ho.
    all: destruct Ho as (_ & _ & _ & Ho); rewrite Ho in Hi; discriminate Hi.
Qed.
Lemma act_hand s D sf i b l : Act cnt s D sf -> thr_pc s i = F2 b l true ->
  Hand cnt (set_thr (set_dptr s (Some (b :: l))) i F3) i.
Proof.
  intros Hn Hi. pose proof Hn as [Hr Hh Hs Hc HD Hf Hm Ha Ht H2 Hk Hu He Ho].
  destruct (act_lock s D sf i l Hn) as (-> & Hd & Hj & Hol & Hz); [rewrite Hi; reflexivity|]. rewrite Hi in Hz. cbn in Hz.
  assert (Hb : fl (thr_pc s i) = Some b) by (rewrite Hi; reflexivity).
  pose proof (n_sum1 s D sf b i Hn Hb) as Hs1.
  assert (Hnc : lsz s = cnt). { pose proof (H2 _ _ _ _ Hi) as Hx. symmetry in Hx. apply Nat.eqb_eq in Hx. exact Hx. }
  assert (Hsf : sf = []) by (destruct sf; [reflexivity|cbn in Hs1; lia]). subst sf. cbn in Hs1.
  assert (T : forall c p, at_ s D [] c p -> p = PDef \/ p = PFree \/ (c = b /\ p = PThr i)).
  { apply (tight1 s D [] b i Hn Hb). cbn. lia. }
  assert (Hown : own_pc s = OIdle).
  { unfold opst in Ho. destruct (own_pc s) eqn:E; try reflexivity.
    1-7: destruct (T _ POwn (f_equal ob E)) as [Hx|[Hx|[_ Hx]]]; discriminate Hx.
    - destruct Ho as (_ & Ho). congruence.
    - destruct Ho as (_ & Ho & _). congruence.
    - destruct Ho as (_ & Ho & _). congruence.
    - destruct Ho as (_ & Ho & _). congruence. }
  constructor; flds.
  - constructor; flds; [exact Hown| | |].
    + intros c. destruct (who s c) eqn:E; [|reflexivity]. destruct (T c PWho) as [Hx|[Hx|[_ Hx]]]; [unfold at_; congruence|..]; discriminate Hx.
    + destruct (cls s) as [|c r] eqn:E; [reflexivity|]. destruct (T c PCls) as [Hx|[Hx|[_ Hx]]]; [unfold at_; rewrite E; left; reflexivity|..]; discriminate Hx.
    + exists (b :: D). split; [reflexivity|]. intros _.
      assert (ND : NoDup (b :: D)) by (constructor; [intros Hx; discriminate (n_two s D [] b (PThr i) PDef Hn Hb Hx)|exact HD]).
      assert (LT : forall x, In x (b :: D) -> x < cnt).
      { intros x [<-|Hx]; [pose proof (n_low s D [] _ (PThr i) Hn Hb)|pose proof (n_low s D [] _ PDef Hn Hx)]; lia. }
      split; [exact ND|]. split; [|lia]. intros x. split; [apply LT|]. apply (pigeon _ cnt ND LT). cbn. lia.
  - exact Hr.
  - exact Hh.
  - unfold opst in Ho. rewrite Hown in Ho. rewrite Ho. destruct (Nat.leb_spec cnt (lim s)); [reflexivity|lia].
  - left. rewrite upd_eq, Nat.eqb_refl. reflexivity.
  - intros j Hne. rewrite upd_eq. destruct (Nat.eqb_spec j i) as [E|_]; [contradiction|].
    destruct (Ht j) as [E|E]; [exact E|]. exfalso. destruct (fl (thr_pc s j)) as [c|] eqn:Ec; [|congruence].
    destruct (T c (PThr j) Ec) as [Hx|[Hx|[_ Hx]]]; congruence.
Qed.

(* the owner's steps *)
Ltac same_at Ha Hp := apply (places_same _ _ _ Ha); intros ? p; destruct p; unfold at_; flds; try reflexivity; rewrite ?Hp; reflexivity.
Lemma act_A2 s D sf r : Act cnt s D sf -> own_pc s = A2 r -> forall v, v = A3 r \/ v = A7 r -> Act cnt (set_own s v) D sf.
Proof.
  intros Hn Hp v Hv. destruct Hn as [Hr Hh Hs Hc HD Hf Hm Ha Ht H2 Hk Hu He Ho].
  unfold opst in Ho. unfold lockst in Hk. rewrite Hp in *.
  constructor; flds; try assumption.
  - destruct Hv as [->| ->]; same_at Ha Hp.
  - unfold lockst. flds. destruct (dptr s) as [d|].
    + destruct Hv as [->| ->]; exact Hk.
    + destruct Hk as [(i & Hk)|(Hx & _)]; [|discriminate Hx]. left. exists i. destruct Hv as [->| ->]; exact Hk.
  - destruct Hv as [->| ->]; exact Hu.
  - unfold opst. flds. destruct Hv as [->| ->]; [exact Ho|exact (proj1 Ho)].
Qed.
Lemma act_A3 s D sf r l : Act cnt s D sf -> own_pc s = A3 r -> dptr s = Some l ->
  Act cnt (set_own (set_sfree (set_dptr s None) (Some l)) (A4 r)) [] l.
Proof.
  intros Hn Hp Hl. destruct Hn as [Hr Hh Hs Hc HD Hf Hm Ha Ht H2 Hk Hu He Ho].
  unfold opst in Ho. unfold lockst in Hk. rewrite Hp, ?Hl in *. destruct Hk as (-> & Hz & Htl & _). destruct Ho as (Ho & ->).
  constructor; flds; try assumption; try reflexivity.
  - apply (places_map _ _ _ (fun _ p => match p with PDef => PFree | p => p end) Ha). intros b p. split.
    + destruct p as [| | | |i|]; unfold at_; flds; intros Hx.
      * exists PCls. auto.
      * destruct Hx.
      * exists PDef. auto.
      * exists PWho. auto.
      * exists (PThr i). auto.
      * exists POwn. rewrite Hp. auto.
    + intros (q & Hq & ->). destruct q as [| | | |i|]; unfold at_ in *; flds; try exact Hq; [destruct Hq|]. rewrite Hp in Hq. exact Hq.
  - unfold lockst. flds. right. auto.
  - cbn in *. lia.
Qed.
Lemma act_A4 s D sf r : Act cnt s D sf -> own_pc s = A4 r -> Act cnt (set_own (set_usd s (usd s - lsz s)) (A5 r)) D sf.
Proof.
  intros Hn Hp. pose proof (n_sum s D sf Hn) as Hsum. destruct Hn as [Hr Hh Hs Hc HD Hf Hm Ha Ht H2 Hk Hu He Ho].
  unfold opst in Ho. unfold lockst in Hk. rewrite Hp in *.
  assert (HK : dptr s = None /\ D = [] /\ (forall i, tl (thr_pc s i) = None) /\ lsz s = length sf).
  { destruct (dptr s) as [d|]; [destruct Hk as (_ & _ & _ & Hx); discriminate Hx|].
    destruct Hk as [(i & _ & _ & Hx & _)|(Hx & Hi & Hz)]; [discriminate Hx|]. injection Hx as <-. auto. }
  destruct HK as (Hd & -> & Htl & Hz).
  constructor; flds; try assumption.
  - same_at Ha Hp.
  - lia.
Qed.
Lemma act_A5 s D sf r : Act cnt s D sf -> own_pc s = A5 r -> Act cnt (set_own (set_lsz s 0) (A6 r)) D sf.
Proof.
  intros Hn Hp. destruct Hn as [Hr Hh Hs Hc HD Hf Hm Ha Ht H2 Hk Hu He Ho].
  unfold opst in Ho. unfold lockst in Hk. rewrite Hp in *.
  assert (HK : dptr s = None /\ D = [] /\ (forall i, tl (thr_pc s i) = None) /\ lsz s = length sf).
  { destruct (dptr s) as [d|]; [destruct Hk as (_ & _ & _ & Hx); discriminate Hx|].
    destruct Hk as [(i & _ & _ & Hx & _)|(Hx & Hi & Hz)]; [discriminate Hx|]. injection Hx as <-. auto. }
  destruct HK as (Hd & -> & Htl & Hz).
  constructor; flds; try assumption.
  - same_at Ha Hp.
  - intros i b l a Hx. specialize (Htl i). rewrite Hx in Htl. discriminate Htl.
  - unfold lockst. flds. rewrite Hd. right. auto.
Qed.
Lemma act_A6 s D sf r : Act cnt s D sf -> own_pc s = A6 r -> Act cnt (set_own (set_dptr s (Some [])) (A7 r)) D sf.
Proof.
  intros Hn Hp. destruct Hn as [Hr Hh Hs Hc HD Hf Hm Ha Ht H2 Hk Hu He Ho].
  unfold opst in Ho. unfold lockst in Hk. rewrite Hp in *.
  assert (HK : dptr s = None /\ D = [] /\ (forall i, tl (thr_pc s i) = None) /\ lsz s = 0).
  { destruct (dptr s) as [d|]; [destruct Hk as (_ & _ & _ & Hx); discriminate Hx|].
    destruct Hk as [(i & _ & _ & Hx & _)|(Hx & Hi & Hz)]; [discriminate Hx|]. injection Hx as <-. auto. }
  destruct HK as (Hd & -> & Htl & Hz).
  constructor; flds; try assumption.
  - same_at Ha Hp.
  - unfold lockst. flds. auto.
Qed.
(* moves of one block between the owner's hand, a list and a caller *)
Lemma at_only s D sf (A' : nat -> place -> Prop) b p0 q0 : Act cnt s D sf -> at_ s D sf b p0 ->
  A' b q0 -> (forall p, p <> q0 -> A' b p -> at_ s D sf b p /\ p <> p0) -> forall p, A' b p <-> p = q0.
Proof.
  intros Hn H0 Hq Hp p. split; [|intros ->; exact Hq]. intros Hx.
  assert (Dec : p = q0 \/ p <> q0). { destruct p as [| | | |i|], q0 as [| | | |j|]; try (right; discriminate); try (left; reflexivity).
    destruct (Nat.eq_dec i j) as [->|E]; [left; reflexivity|right; congruence]. }
  destruct Dec as [E|E]; [exact E|]. destruct (Hp p E Hx) as (Ha & Hne). exfalso. apply Hne, (n_two s D sf b p p0 Hn Ha H0).
Qed.
Lemma act_A7 s D sf r : Act cnt s D sf -> own_pc s = A7 r ->
  Act cnt (set_own (set_who (if match sf with [] => cnt <=? lim s | _ => false end then set_part s false else s) r (Some 0)) OIdle) D sf.
Proof.
  intros Hn Hp. pose proof Hn as [Hr Hh Hs Hc HD Hf Hm Ha Ht H2 Hk Hu He Ho].
  unfold opst in Ho. unfold lockst in Hk. rewrite Hp in Ho, Hk, Hu.
  assert (Hr0 : at_ s D sf r POwn) by (unfold at_; rewrite Hp; reflexivity).
  set (f := match sf with [] => cnt <=? lim s | _ => false end).
  assert (G : Act cnt (set_own (set_who (set_part s (negb f)) r (Some 0)) OIdle) D sf).
  { constructor; flds; try assumption.
    - apply (places_move _ _ _ r POwn PWho Ha Hr0).
      + intros x p Hx. destruct p; unfold at_; flds; try reflexivity.
        * rewrite upd_eq. destruct (Nat.eqb_spec x r) as [E|_]; [contradiction|reflexivity].
        * rewrite Hp. cbn. split; congruence.
      + apply (at_only s D sf _ r POwn PWho Hn Hr0).
        * unfold at_. flds. rewrite upd_eq, Nat.eqb_refl. discriminate.
        * intros p Hne. destruct p; unfold at_; flds; intros Hx; try (split; [exact Hx|discriminate]); [congruence|discriminate Hx].
    - unfold opst. flds. reflexivity. }
  destruct f; [exact G|]. cbn [negb] in G.
  replace (set_who s r (Some 0)) with (set_who (set_part s true) r (Some 0)); [exact G|].
  unfold set_who, set_part. cbn. rewrite <- Ho. reflexivity.
Qed.
Lemma act_D1 s D sf b : Act cnt s D sf -> own_pc s = D1 b ->
  let s1 := if match sf with [] => cnt <=? lim s | _ => false end then set_part (set_usd s cnt) true else s in
  Act cnt (set_own (set_sfree (set_usd s1 (usd s1 - 1)) (Some (b :: sf))) D2) D (b :: sf).
Proof.
  intros Hn Hp s1. pose proof Hn as [Hr Hh Hs Hc HD Hf Hm Ha Ht H2 Hk Hu He Ho].
  unfold opst in Ho. unfold lockst in Hk. rewrite Hp in Ho, Hk, Hu.
  assert (Hb : at_ s D sf b POwn) by (unfold at_; rewrite Hp; reflexivity).
  assert (Hsum : length D + length sf < lim s) by (apply (n_sum_own s D sf b Hn Hb)).
  assert (E1 : set_own (set_sfree (set_usd s1 (usd s1 - 1)) (Some (b :: sf))) D2
               = set_own (set_sfree (set_usd (set_part s true) (usd s - 1)) (Some (b :: sf))) D2).
  { subst s1. destruct sf as [|c r]; [destruct (Nat.leb_spec cnt (lim s))|].
    - unfold set_own, set_sfree, set_usd, set_part. cbn. f_equal. cbn in Hu. lia.
    - unfold set_own, set_sfree, set_usd, set_part. cbn. rewrite Ho. reflexivity.
    - unfold set_own, set_sfree, set_usd, set_part. cbn. rewrite Ho. reflexivity. }
  rewrite E1. clear E1 s1.
  constructor; flds; try assumption; try reflexivity.
  - constructor; [|exact Hf]. intros Hx. discriminate (n_two s D sf b POwn PFree Hn Hb Hx).
  - apply (places_move _ _ _ b POwn PFree Ha Hb).
    + intros x p Hx. destruct p; unfold at_; flds; try reflexivity.
      * cbn. intuition congruence.
      * rewrite Hp. cbn. split; congruence.
    + apply (at_only s D sf _ b POwn PFree Hn Hb).
      * left. reflexivity.
      * intros p Hne. destruct p; unfold at_; flds; intros Hx; try (split; [exact Hx|discriminate]); [congruence|discriminate Hx].
  - cbn. lia.
  - unfold opst. flds. split; [reflexivity|discriminate].
Qed.
Lemma act_D2 s D sf : Act cnt s D sf -> own_pc s = D2 ->
  Act cnt (set_own s (if Nat.eqb (usd s) (lsz s) then (if Nat.eqb (usd s) 0 then D5 else D3) else OIdle)) D sf.
Proof.
  intros Hn Hp. pose proof Hn as [Hr Hh Hs Hc HD Hf Hm Ha Ht H2 Hk Hu He Ho].
  unfold opst in Ho. unfold lockst in Hk. rewrite Hp in Ho, Hk, Hu. destruct Ho as (Ho & Hne).
  set (v := if Nat.eqb (usd s) (lsz s) then (if Nat.eqb (usd s) 0 then D5 else D3) else OIdle).
  assert (Hv : v = D5 \/ v = D3 \/ v = OIdle) by (subst v; destruct (Nat.eqb (usd s) (lsz s)); [destruct (Nat.eqb (usd s) 0)|]; auto).
  constructor; flds; try assumption.
  - apply (places_same _ _ _ Ha). intros ? p; destruct p; unfold at_; flds; try reflexivity. rewrite Hp. destruct Hv as [->|[->| ->]]; reflexivity.
  - unfold lockst. flds. destruct (dptr s) as [d|].
    + destruct Hv as [->|[->| ->]]; exact Hk.
    + destruct Hk as [(i & Hk)|(Hx & _)]; [|discriminate Hx]. left. exists i. destruct Hv as [->|[->| ->]]; exact Hk.
  - destruct Hv as [->|[->| ->]]; exact Hu.
  - unfold opst. flds. subst v. destruct (Nat.eqb_spec (usd s) (lsz s)) as [E|_].
    + destruct (Nat.eqb_spec (usd s) 0) as [E0|_]; [|auto].
      split; [exact Ho|]. split; [exact Hne|]. split; [exact E|]. intros i. destruct (Ht i) as [Hi|Hi]; [exact Hi|]. exfalso.
      destruct (fl (thr_pc s i)) as [b|] eqn:Eb; [|congruence]. pose proof (n_sum1 s D sf b i Hn Eb). lia.
    + destruct sf; [congruence|]. exact Ho.
Qed.
Lemma act_D3 s D sf l : Act cnt s D sf -> own_pc s = D3 -> dptr s = Some l -> Act cnt (set_own (set_dptr s None) (D4 l)) D sf.
Proof.
  intros Hn Hp Hd. pose proof Hn as [Hr Hh Hs Hc HD Hf Hm Ha Ht H2 Hk Hu He Ho].
  unfold opst in Ho. unfold lockst in Hk. rewrite Hp in Ho, Hk, Hu. rewrite Hd in Hk. destruct Ho as (Ho & Hne & Hz). destruct Hk as (-> & Hk & Htl & _).
  constructor; flds; try assumption.
  - same_at Ha Hp.
  - unfold lockst. flds. right. auto.
  - unfold opst. flds. split; [exact Ho|]. split; [exact Hne|]. split; [exact Hz|].
    intros i. destruct (Ht i) as [Hi|Hi]; [exact Hi|]. exfalso.
    destruct (fl (thr_pc s i)) as [b|] eqn:Eb; [|congruence]. pose proof (n_sum1 s D sf b i Hn Eb). lia.
Qed.
Lemma act_D4 s D sf l : Act cnt s D sf -> own_pc s = D4 l -> Act cnt (set_own (set_dptr s (Some l)) D5) D sf.
Proof.
  intros Hn Hp. pose proof Hn as [Hr Hh Hs Hc HD Hf Hm Ha Ht H2 Hk Hu He Ho].
  unfold opst in Ho. unfold lockst in Hk. rewrite Hp in Ho, Hk, Hu.
  assert (HK : l = D /\ lsz s = length D).
  { destruct (dptr s) as [d|]; [destruct Hk as (_ & _ & _ & Hx); discriminate Hx|].
    destruct Hk as [(i & _ & _ & Hx & _)|(Hx & Hi & Hz)]; [discriminate Hx|]. injection Hx as <-. auto. }
  destruct HK as (-> & Hz).
  constructor; flds; try assumption.
  - same_at Ha Hp.
  - unfold lockst. flds. split; [reflexivity|]. split; [exact Hz|]. split; [|reflexivity]. intros i. rewrite (proj2 (proj2 (proj2 Ho))). reflexivity.
Qed.
(* nothing is out when both counts agree and no other thread is at work *)
Lemma act_tight s D sf : Act cnt s D sf -> own_pc s = D5 \/ (exists l, own_pc s = D4 l) -> forall b p, at_ s D sf b p -> p = PDef \/ p = PFree.
Proof.
  intros Hn Hp. apply (tight s D sf Hn). destruct Hn as [Hr Hh Hs Hc HD Hf Hm Ha Ht H2 Hk Hu He Ho].
  unfold opst in Ho. unfold lockst in Hk.
  assert (HK : usd s = lsz s /\ lsz s = length D /\ usd s + length sf = lim s + 0).
  { destruct Hp as [Hp|(l & Hp)]; rewrite Hp in Ho, Hk, Hu; destruct Ho as (_ & _ & Hz & Hi); (split; [exact Hz|]; split; [|exact Hu]);
      (destruct (dptr s) as [d|]; [tauto|]; destruct Hk as [(i & Hk & _)|Hk]; [rewrite Hi in Hk; discriminate Hk|tauto]). }
  lia.
Qed.
Lemma act_D5 s D sf : Act cnt s D sf -> own_pc s = D5 -> Gone cnt (set_own (set_relsd (set_part s false) true) OIdle).
Proof.
  intros Hn Hp. pose proof (act_tight s D sf Hn (or_introl Hp)) as T. destruct Hn as [Hr Hh Hs Hc HD Hf Hm Ha Ht H2 Hk Hu He Ho].
  unfold opst in Ho. rewrite Hp in Ho. destruct Ho as (_ & _ & _ & Hi).
  assert (Hd : exists d, dptr s = Some d).
  { unfold lockst in Hk. rewrite Hp in Hk. destruct (dptr s) as [d|]; [eauto|].
    destruct Hk as [(i & Hx & _)|(Hx & _)]; [rewrite Hi in Hx; discriminate Hx|discriminate Hx]. }
  constructor; flds; try assumption; try reflexivity. constructor; flds; [reflexivity| | |destruct Hd as (d & Hd); exists d; split; [exact Hd|discriminate]].
  - intros c. destruct (who s c) eqn:E; [|reflexivity]. destruct (T c PWho) as [Hx|Hx]; [unfold at_; congruence|..]; discriminate Hx.
  - destruct (cls s) as [|c r] eqn:E; [reflexivity|]. destruct (T c PCls) as [Hx|Hx]; [unfold at_; rewrite E; left; reflexivity|..]; discriminate Hx.
Qed.

(* ---------- calls begun ---------- *)
Lemma act_freeby s D sf i b j : Act cnt s D sf -> thr_pc s i = TIdle -> who s b = Some j ->
  Act cnt (set_thr (set_who s b None) i (F0 b)) D sf.
Proof.
  intros Hn Hi Hb. pose proof Hn as [Hr Hh Hs Hc HD Hf Hm Ha Ht H2 Hk Hu He Ho].
  assert (Hw : at_ s D sf b PWho) by (unfold at_; congruence).
  constructor; flds; try assumption.
  - apply (places_move _ _ _ b PWho (PThr i) Ha Hw).
    + intros x p Hx. destruct p as [| | | |k|]; unfold at_; flds; try reflexivity.
      * rewrite upd_eq. destruct (Nat.eqb_spec x b) as [E|_]; [contradiction|reflexivity].
      * rewrite upd_eq. destruct (Nat.eqb_spec k i) as [->|_]; [rewrite Hi; cbn; split; congruence|reflexivity].
    + apply (at_only s D sf _ b PWho (PThr i) Hn Hw).
      * unfold at_. flds. rewrite upd_eq, Nat.eqb_refl. reflexivity.
      * intros p Hne. destruct p as [| | | |k|]; unfold at_; flds; intros Hx; try (split; [exact Hx|discriminate]).
        -- rewrite upd_eq, Nat.eqb_refl in Hx. congruence.
        -- rewrite upd_eq in Hx. destruct (Nat.eqb_spec k i) as [->|_]; [congruence|]. split; [exact Hx|discriminate].
  - intros k. rewrite upd_eq. destruct (Nat.eqb_spec k i) as [_|_]; [right; discriminate|apply Ht].
  - intros k c d a. rewrite upd_eq. destruct (Nat.eqb_spec k i) as [_|_]; [discriminate|apply H2].
  - unfold lockst in *. flds.
    assert (G : forall k, tl (upd (thr_pc s) i (F0 b) k) = tl (thr_pc s k)).
    { intros k. rewrite upd_eq. destruct (Nat.eqb_spec k i) as [->|_]; [rewrite Hi|]; reflexivity. }
    assert (G2 : forall k, ext (upd (thr_pc s) i (F0 b) k) = ext (thr_pc s k)).
    { intros k. rewrite upd_eq. destruct (Nat.eqb_spec k i) as [->|_]; [rewrite Hi|]; reflexivity. }
    destruct (dptr s) as [d|].
    + destruct Hk as (K1 & K2 & K3 & K4). split; [exact K1|]. split; [exact K2|]. split; [|exact K4]. intros k. rewrite G. apply K3.
    + destruct Hk as [(k & K1 & K2 & K3 & K4)|(K1 & K2 & K3)].
      * left. exists k. rewrite G, G2. split; [exact K1|]. split; [|auto]. intros m. rewrite G. apply K2.
      * right. split; [exact K1|]. split; [|exact K3]. intros k. rewrite G. apply K2.
  - unfold opst in *. flds. destruct (own_pc s) eqn:Ep; try exact Ho.
    + destruct (act_tight s D sf Hn (or_intror (ex_intro _ _ Ep)) b PWho Hw) as [Hx|Hx]; discriminate Hx.
    + destruct (act_tight s D sf Hn (or_introl Ep) b PWho Hw) as [Hx|Hx]; discriminate Hx.
Qed.
Lemma act_fast s D sf b r : Act cnt s D sf -> own_pc s = OIdle -> cls s = b :: r ->
  Act cnt (set_who (set_cls s r) b (Some 0)) D sf.
Proof.
  intros Hn Hp Hcl. pose proof Hn as [Hr Hh Hs Hc HD Hf Hm Ha Ht H2 Hk Hu He Ho].
  assert (Hw : at_ s D sf b PCls) by (unfold at_; rewrite Hcl; left; reflexivity).
  rewrite Hcl in Hc. inversion Hc as [|? ? Hc1 Hc2]; subst.
  constructor; flds; try assumption.
  apply (places_move _ _ _ b PCls PWho Ha Hw).
  - intros x p Hx. destruct p as [| | | |k|]; unfold at_; flds; try reflexivity.
    + rewrite Hcl. cbn. intuition congruence.
    + rewrite upd_eq. destruct (Nat.eqb_spec x b) as [E|_]; [contradiction|reflexivity].
  - apply (at_only s D sf _ b PCls PWho Hn Hw).
    + unfold at_. flds. rewrite upd_eq, Nat.eqb_refl. discriminate.
    + intros p Hne. destruct p as [| | | |k|]; unfold at_; flds; intros Hx; try (split; [exact Hx|discriminate]); congruence.
Qed.
Lemma act_swap s D b r : Act cnt s D (b :: r) -> own_pc s = OIdle -> cls s = [] ->
  Act cnt (set_own (set_usd (set_sfree (set_cls s r) (Some [])) (lim s)) (A2 b)) D [].
Proof.
  intros Hn Hp Hcl. pose proof Hn as [Hr Hh Hs Hc HD Hf Hm Ha Ht H2 Hk Hu He Ho].
  inversion Hf as [|? ? Hf1 Hf2]; subst. unfold lockst in Hk. unfold opst in Ho. rewrite Hp in Hk, Ho.
  constructor; flds; try assumption; try reflexivity.
  - constructor.
  - apply (places_map _ _ _ (fun x p => match p with PFree => if Nat.eqb x b then POwn else PCls | p => p end) Ha). intros x p. split.
    + destruct p as [| | | |i|]; unfold at_; flds; intros Hx.
      * exists PFree. split; [right; exact Hx|]. destruct (Nat.eqb_spec x b) as [->|_]; [contradiction|reflexivity].
      * exists PDef. auto.
      * destruct Hx.
      * exists PWho. auto.
      * exists (PThr i). auto.
      * cbn in Hx. injection Hx as <-. exists PFree. split; [left; reflexivity|]. now rewrite Nat.eqb_refl.
    + intros (q & Hq & ->). destruct q as [| | | |i|]; unfold at_ in *; flds; try exact Hq.
      * rewrite Hcl in Hq. destruct Hq.
      * destruct (Nat.eqb_spec x b) as [->|E]; [reflexivity|]. destruct Hq as [Hq|Hq]; [congruence|exact Hq].
      * rewrite Hp in Hq. discriminate Hq.
  - unfold opst. flds. auto.
Qed.
Lemma grant_le k n : 0 < n -> 1 <= grant k n <= n.
Proof. unfold grant. lia. Qed.
Lemma act_link s D k : Act cnt s D [] -> own_pc s = OIdle -> cls s = [] -> part s = true ->
  let n := grant k (cnt - lim s) in
  lim s < cnt /\ Act cnt (set_own (set_usd (set_lim (set_cls s (seq (S (lim s)) (n - 1))) (lim s + n)) (lim s + n)) (A2 (lim s))) D [].
Proof.
  intros Hn Hp Hcl Hpt n. pose proof Hn as [Hr Hh Hs Hc HD Hf Hm Ha Ht H2 Hk Hu He Ho].
  unfold lockst in Hk. unfold opst in Ho. rewrite Hp in Hk, Ho.
  assert (Hlt : lim s < cnt). { rewrite Hpt in Ho. destruct (Nat.leb_spec cnt (lim s)); [discriminate Ho|assumption]. }
  assert (Hg : 1 <= n <= cnt - lim s) by (apply grant_le; lia). clearbody n.
  split; [exact Hlt|]. constructor; flds; try assumption; try reflexivity.
  - apply seq_NoDup.
  - lia.
  - apply (places_grow (lim s) _ _ _ (fun x => if Nat.eqb x (lim s) then POwn else PCls)) with (2 := Ha); [lia|].
    intros x p. destruct p as [| | | |i|]; unfold at_; flds.
    + rewrite in_seq, Hcl. destruct (Nat.eqb_spec x (lim s)); cbn [In]; intuition (try lia; try discriminate).
    + destruct (Nat.eqb_spec x (lim s)); intuition discriminate.
    + destruct (Nat.eqb_spec x (lim s)); intuition discriminate.
    + destruct (Nat.eqb_spec x (lim s)); intuition discriminate.
    + destruct (Nat.eqb_spec x (lim s)); intuition discriminate.
    + rewrite Hp. cbn. destruct (Nat.eqb_spec x (lim s)); intuition (try lia; try discriminate; try congruence).
  - unfold opst. flds. auto.
Qed.
Lemma act_free s D sf b j : Act cnt s D sf -> own_pc s = OIdle -> who s b = Some j -> Act cnt (set_own (set_who s b None) (D1 b)) D sf.
Proof.
  intros Hn Hp Hb. pose proof Hn as [Hr Hh Hs Hc HD Hf Hm Ha Ht H2 Hk Hu He Ho].
  unfold lockst in Hk. unfold opst in Ho. rewrite Hp in Hk, Ho, Hu.
  assert (Hw : at_ s D sf b PWho) by (unfold at_; congruence).
  constructor; flds; try assumption.
  - apply (places_move _ _ _ b PWho POwn Ha Hw).
    + intros x p Hx. destruct p as [| | | |k|]; unfold at_; flds; try reflexivity.
      * rewrite upd_eq. destruct (Nat.eqb_spec x b) as [E|_]; [contradiction|reflexivity].
      * rewrite Hp. cbn. split; congruence.
    + apply (at_only s D sf _ b PWho POwn Hn Hw).
      * reflexivity.
      * intros p Hne. destruct p as [| | | |k|]; unfold at_; flds; intros Hx; try (split; [exact Hx|discriminate]); try congruence.
        rewrite upd_eq, Nat.eqb_refl in Hx. congruence.
Qed.
Lemma act_give s D sf b i j : Act cnt s D sf -> who s b = Some i -> Act cnt (set_who s b (Some j)) D sf.
Proof.
  intros Hn Hb. destruct Hn as [Hr Hh Hs Hc HD Hf Hm Ha Ht H2 Hk Hu He Ho].
  constructor; flds; try assumption.
  apply (places_same _ _ _ Ha). intros x p. destruct p as [| | | |k|]; unfold at_; flds; try reflexivity.
  rewrite upd_eq. destruct (Nat.eqb_spec x b) as [->|_]; [|reflexivity]. rewrite Hb. split; discriminate.
Qed.
Lemma act_hdef s D sf h : Act cnt s D sf -> ~ In 0 h -> Act cnt (set_hdef s h) D sf.
Proof. intros Hn Hh'. destruct Hn as [Hr Hh Hs Hc HD Hf Hm Ha Ht H2 Hk Hu He Ho]. constructor; flds; assumption. Qed.
Lemma act_reuse s k : Gone cnt s -> exists s', cstep cnt s (LReuse k) = Ok s' /\ Act cnt s' [] [].
Proof.
  intros [[Hp Hw Hcl _] Hr Hh Hpt Ht]. unfold cstep. rewrite Hp, Hr, Hcl. eexists. split; [reflexivity|].
  pose proof (grant_le k cnt Hcnt) as Hg. set (n := grant k cnt) in *.
  constructor; flds; try assumption; try reflexivity.
  - cbn [app]. apply seq_NoDup.
  - constructor.
  - constructor.
  - lia.
  - assert (E : forall x p, at_ {| dptr := Some []; lsz := 0; sfree := Some []; lim := n; usd := n; part := n <? cnt; cls := [] ++ seq 1 (n - 1);
                   relsd := false; hdef := hdef s; who := upd (who s) 0 (Some 0); own_pc := OIdle; thr_pc := thr_pc s |} [] [] x p
              <-> x < n /\ p = if Nat.eqb x 0 then PWho else PCls).
    { intros x p. destruct p as [| | | |i|]; unfold at_; flds; cbn [app ob In].
      - rewrite in_seq. destruct (Nat.eqb_spec x 0); intuition (try lia; try discriminate).
      - destruct (Nat.eqb_spec x 0); intuition discriminate.
      - destruct (Nat.eqb_spec x 0); intuition discriminate.
      - rewrite upd_eq. destruct (Nat.eqb_spec x 0); [intuition (try lia; try discriminate)|]. rewrite Hw. intuition discriminate.
      - rewrite Ht. cbn. destruct (Nat.eqb_spec x 0); intuition discriminate.
      - destruct (Nat.eqb_spec x 0); intuition discriminate. }
    repeat split.
    + intros b p q Hp' Hq. apply E in Hp' as (_ & ->). apply E in Hq as (_ & ->). reflexivity.
    + intros b p Hp'. apply E in Hp'. tauto.
    + intros b Hb. eexists. apply E. split; [exact Hb|reflexivity].
  - intros i. left. apply Ht.
  - intros i b l a. rewrite Ht. discriminate.
  - unfold lockst. flds. split; [reflexivity|]. split; [reflexivity|]. split; [|reflexivity]. intros i. rewrite Ht. reflexivity.
  - unfold opst. flds. destruct (Nat.leb_spec cnt n), (Nat.ltb_spec n cnt); try reflexivity; lia.
Qed.

(* ---------- every step ---------- *)
Definition outs (s : cs) (o : list nat) : Prop := NoDup o /\ forall b, In b o <-> who s b <> None.
(* a step is defined, keeps the invariant, and what it reports is allowed *)
Definition good (s : cs) (a : label) : Prop :=
  exists s', cstep cnt s a = Ok s' /\ inv cnt s' /\
    forall o, outs s o -> exists o', outs s' o' /\ forall h, fair cnt o' h -> fair cnt o (ev s a ++ h).
Lemma outs_none s : (forall b, who s b = None) -> forall o, outs s o -> o = [].
Proof. intros Hw o (_ & Ho). destruct o as [|b r]; [reflexivity|]. exfalso. apply (proj1 (Ho b)); [left; reflexivity|apply Hw]. Qed.
Lemma outs_same s s' o : (forall b, who s' b = who s b) -> outs s o -> outs s' o.
Proof. intros E (Hn & Ho). split; [exact Hn|]. intros b. rewrite E. apply Ho. Qed.
Lemma outs_add s s' b j o : (forall x, who s' x = upd (who s) b (Some j) x) -> who s b = None -> outs s o -> outs s' (b :: o) /\ ~ In b o.
Proof.
  intros E Hb (Hn & Ho). assert (Hi : ~ In b o) by (rewrite Ho; congruence). split; [|exact Hi]. split; [constructor; assumption|].
  intros x. rewrite E, upd_eq. cbn [In]. destruct (Nat.eqb_spec x b) as [->|Hx]; [split; [discriminate|auto]|]. rewrite Ho. intuition congruence.
Qed.
Lemma outs_del s s' b j o : (forall x, who s' x = upd (who s) b None x) -> who s b = Some j -> outs s o -> outs s' (remove Nat.eq_dec b o) /\ In b o.
Proof.
  intros E Hb (Hn & Ho). split; [|rewrite Ho; congruence]. split.
  - clear - Hn. induction o as [|x r IH]; cbn; [constructor|]. inversion Hn as [|? ? Hx Hr]; subst. destruct (Nat.eq_dec b x); [apply IH; exact Hr|].
    constructor; [|apply IH; exact Hr]. intros Hi. apply in_remove in Hi. tauto.
  - intros x. rewrite E, upd_eq. destruct (Nat.eqb_spec x b) as [->|Hx].
    + split; [|congruence]. intros Hi. exfalso. apply (remove_In _ _ _ Hi).
    + split; [intros Hi; apply in_remove in Hi; apply Ho; tauto|]. intros Hi. apply in_in_remove; [exact Hx|]. apply Ho. exact Hi.
Qed.
(* steps that report nothing *)
Lemma good_quiet s a s' : cstep cnt s a = Ok s' -> inv cnt s' -> ev s a = [] -> (forall b, who s' b = who s b) -> good s a.
Proof.
  intros Hs Hi He Hw. exists s'. split; [exact Hs|]. split; [exact Hi|]. intros o Ho. exists o. split; [apply (outs_same s); assumption|].
  rewrite He. intros h Hh. exact Hh.
Qed.
Lemma good_out s a s' b j : cstep cnt s a = Ok s' -> inv cnt s' -> ev s a = [Out b] -> who s b = None -> b < cnt ->
  (forall x, who s' x = upd (who s) b (Some j) x) -> good s a.
Proof.
  intros Hs Hi He Hb Hlt Hw. exists s'. split; [exact Hs|]. split; [exact Hi|]. intros o Ho.
  destruct (outs_add s s' b j o Hw Hb Ho) as (Ho' & Hn). exists (b :: o). split; [exact Ho'|]. rewrite He. intros h Hh. cbn. auto.
Qed.
Lemma good_in s a s' b j : cstep cnt s a = Ok s' -> inv cnt s' -> ev s a = [In_ b] -> who s b = Some j ->
  (forall x, who s' x = upd (who s) b None x) -> good s a.
Proof.
  intros Hs Hi He Hb Hw. exists s'. split; [exact Hs|]. split; [exact Hi|]. intros o Ho.
  destruct (outs_del s s' b j o Hw Hb Ho) as (Ho' & Hn). exists (remove Nat.eq_dec b o). split; [exact Ho'|]. rewrite He. intros h Hh. cbn. auto.
Qed.
Lemma good_back s a s' : cstep cnt s a = Ok s' -> inv cnt s' -> ev s a = [Back] -> (forall b, who s b = None) ->
  (forall b, who s' b = who s b) -> good s a.
Proof.
  intros Hs Hi He Hb Hw. exists s'. split; [exact Hs|]. split; [exact Hi|]. intros o Ho.
  exists o. split; [apply (outs_same s); assumption|]. rewrite He. intros h Hh. cbn. split; [apply (outs_none s Hb o Ho)|exact Hh].
Qed.
Lemma noz (l : list nat) : ~ In 0 l -> existsb (Nat.eqb 0) l = false /\ filter (Nat.eqb 0) l = [].
Proof.
  induction l as [|x l IH]; intros Hn; [auto|]. destruct IH as (I1 & I2); [intros Hi; apply Hn; right; exact Hi|].
  cbn. destruct x as [|x]; [exfalso; apply Hn; left; reflexivity|]. auto.
Qed.
Lemma onez (l : list nat) : count_occ Nat.eq_dec l 0 = 1 -> existsb (Nat.eqb 0) l = true /\ filter (Nat.eqb 0) l = [0].
Proof.
  induction l as [|x l IH]; cbn; [discriminate|]. destruct (Nat.eq_dec x 0) as [->|Hx].
  - intros Hc. injection Hc as Hc. split; [reflexivity|]. cbn. f_equal. apply noz. intros Hi. apply (count_occ_In Nat.eq_dec) in Hi. lia.
  - destruct x as [|x]; [contradiction|]. cbn. exact IH.
Qed.
Lemma inv_act s D sf : Act cnt s D sf -> inv cnt s. Proof. left. eauto. Qed.

Lemma act_good s D sf a : Act cnt s D sf -> good s a.
Proof.
  intros Hn. pose proof Hn as [Hr Hh Hs _ _ _ Hm _ Ht _ Hk _ _ Ho].
  destruct a as [i| |i b|k|b| |k|i j b|x].
  - destruct (thr_pc s i) as [|b|b l|b l al| |h] eqn:E.
    + apply (good_quiet s (LThr i) s); [cbn; unfold thr_step; rewrite E; reflexivity|eapply inv_act; eauto|reflexivity|reflexivity].
    + destruct (dptr s) as [l|] eqn:Ed.
      * eapply good_quiet; [cbn; unfold thr_step; rewrite E, Hr, Ed; reflexivity|eapply inv_act, act_F0; eauto|reflexivity|reflexivity].
      * eapply good_quiet; [cbn; unfold thr_step; rewrite E, Hr, Ed; reflexivity|eapply inv_act; eauto|reflexivity|reflexivity].
    + eapply good_quiet; [cbn; unfold thr_step; rewrite E, Hr; reflexivity|eapply inv_act, act_F1; eauto|reflexivity|reflexivity].
    + destruct al.
      * eapply good_quiet; [cbn; unfold thr_step; rewrite E, Hr; reflexivity|right; left; exists i; eapply act_hand; eauto|reflexivity|reflexivity].
      * eapply good_quiet; [cbn; unfold thr_step; rewrite E, Hr; reflexivity|eapply inv_act, act_F2; eauto|reflexivity|reflexivity].
    + destruct (Ht i) as [Hx|Hx]; rewrite E in Hx; [discriminate|cbn in Hx; congruence].
    + destruct (Ht i) as [Hx|Hx]; rewrite E in Hx; [discriminate|cbn in Hx; congruence].
  - destruct (own_pc s) as [|r|r|r|r|r|r|b| | |l|] eqn:E.
    + eapply good_quiet; [cbn; unfold own_step; rewrite E; reflexivity|eapply inv_act; eauto|cbn; rewrite E; reflexivity|reflexivity].
    + eapply good_quiet; [cbn; unfold own_step; rewrite E, Hr; reflexivity|eapply inv_act, act_A2; eauto|cbn; rewrite E; reflexivity|reflexivity].
      destruct (dptr s) as [[|]|]; auto.
    + destruct (dptr s) as [l|] eqn:Ed.
      * eapply good_quiet; [cbn; unfold own_step; rewrite E, Hr, Ed; reflexivity|eapply inv_act, act_A3; eauto|cbn; rewrite E; reflexivity|reflexivity].
      * eapply good_quiet; [cbn; unfold own_step; rewrite E, Hr, Ed; reflexivity|eapply inv_act; eauto|cbn; rewrite E; reflexivity|reflexivity].
    + eapply good_quiet; [cbn; unfold own_step; rewrite E, Hr; reflexivity|eapply inv_act, act_A4; eauto|cbn; rewrite E; reflexivity|reflexivity].
    + eapply good_quiet; [cbn; unfold own_step; rewrite E, Hr; reflexivity|eapply inv_act, act_A5; eauto|cbn; rewrite E; reflexivity|reflexivity].
    + eapply good_quiet; [cbn; unfold own_step; rewrite E, Hr; reflexivity|eapply inv_act, act_A6; eauto|cbn; rewrite E; reflexivity|reflexivity].
    + eapply good_out with (b := r) (j := 0).
      * cbn. unfold own_step, full. rewrite E, Hr, Hs. reflexivity.
      * eapply inv_act, act_A7; eauto.
      * cbn. rewrite E. reflexivity.
      * destruct (who s r) eqn:Ew; [|reflexivity]. exfalso.
        assert (W1 : at_ s D sf r PWho) by (unfold at_; congruence). assert (W2 : at_ s D sf r POwn) by (unfold at_; rewrite E; reflexivity).
        discriminate (n_two s D sf r _ _ Hn W1 W2).
      * assert (W2 : at_ s D sf r POwn) by (unfold at_; rewrite E; reflexivity). pose proof (n_low _ _ _ _ _ Hn W2). lia.
      * intros x. destruct (match sf with [] => cnt <=? lim s | _ => false end); reflexivity.
    + eapply good_quiet; [|eapply inv_act, (act_D1 s D sf b); eauto|cbn; rewrite E; reflexivity|].
      * cbn. unfold own_step, full. rewrite E, Hr, Hs. cbn.
        destruct sf as [|c r]; [destruct (cnt <=? lim s)|]; cbn; rewrite Hs; reflexivity.
      * intros x. destruct sf as [|c r]; [destruct (cnt <=? lim s)|]; reflexivity.
    + eapply good_quiet; [cbn; unfold own_step; rewrite E, Hr; reflexivity|eapply inv_act, act_D2; eauto|cbn; rewrite E; reflexivity|reflexivity].
    + destruct (dptr s) as [l|] eqn:Ed.
      * eapply good_quiet; [cbn; unfold own_step; rewrite E, Hr, Ed; reflexivity|eapply inv_act, act_D3; eauto|cbn; rewrite E; reflexivity|reflexivity].
      * eapply good_quiet; [cbn; unfold own_step; rewrite E, Hr, Ed; reflexivity|eapply inv_act; eauto|cbn; rewrite E; reflexivity|reflexivity].
    + eapply good_quiet; [cbn; unfold own_step; rewrite E, Hr; reflexivity|eapply inv_act, act_D4; eauto|cbn; rewrite E; reflexivity|reflexivity].
    + pose proof (act_D5 s D sf Hn E) as Hg.
      eapply good_back; [cbn; unfold own_step; rewrite E, Hr; reflexivity|right; right; right; exact Hg|cbn; rewrite E; reflexivity| |reflexivity].
      apply (q_who _ _ (r_q _ _ Hg)).
  - destruct i as [|i]; [apply (good_quiet s _ s); [reflexivity|eapply inv_act; eauto|reflexivity|reflexivity]|].
    destruct (thr_pc s (S i)) eqn:E; try (apply (good_quiet s _ s); [cbn [cstep]; rewrite E; reflexivity|eapply inv_act; eauto|cbn [ev]; rewrite E; reflexivity|reflexivity]).
    destruct (who s b) as [j|] eqn:Ew; [|apply (good_quiet s _ s); [cbn [cstep]; rewrite E, Ew; reflexivity|eapply inv_act; eauto|cbn [ev]; rewrite E, Ew; reflexivity|reflexivity]].
    destruct (Nat.eqb (S i) j) eqn:Ej; [|apply (good_quiet s _ s); [cbn [cstep]; rewrite E, Ew, Ej; reflexivity|eapply inv_act; eauto|cbn [ev]; rewrite E, Ew, Ej; reflexivity|reflexivity]].
    eapply good_in with (b := b); [cbn [cstep]; rewrite E, Ew, Ej, Hr; reflexivity|eapply inv_act, act_freeby; eauto|cbn [ev]; rewrite E, Ew, Ej; reflexivity|exact Ew|reflexivity].
  - destruct (own_pc s) eqn:E; try (apply (good_quiet s _ s); [cbn [cstep]; rewrite E; reflexivity|eapply inv_act; eauto|cbn [ev]; rewrite E; reflexivity|reflexivity]).
    destruct (cls s) as [|b r] eqn:Ec.
    + destruct (part s) eqn:Ep; [|apply (good_quiet s _ s); [cbn [cstep]; rewrite E, Ec, Ep; reflexivity|eapply inv_act; eauto|cbn [ev]; rewrite E, Ec; reflexivity|reflexivity]].
      destruct sf as [|b r].
      * destruct (act_link s D k Hn E Ec Ep) as (Hlt & Ha).
        eapply good_quiet; [|eapply inv_act; exact Ha|cbn [ev]; rewrite E, Ec; reflexivity|reflexivity].
        cbn [cstep]. rewrite E, Ec, Ep, Hr, Hs. destruct (Nat.leb_spec cnt (lim s)); [lia|]. reflexivity.
      * eapply good_quiet; [cbn [cstep]; rewrite E, Ec, Ep, Hr, Hs; reflexivity|eapply inv_act, act_swap; eauto|cbn [ev]; rewrite E, Ec; reflexivity|reflexivity].
    + assert (W : at_ s D sf b PCls) by (unfold at_; rewrite Ec; left; reflexivity).
      eapply good_out with (b := b) (j := 0); [cbn [cstep]; rewrite E, Ec; reflexivity|eapply inv_act, act_fast; eauto|cbn [ev]; rewrite E, Ec; reflexivity| | |reflexivity].
      * destruct (who s b) eqn:Ew; [|reflexivity]. assert (W1 : at_ s D sf b PWho) by (unfold at_; congruence).
        discriminate (n_two s D sf b _ _ Hn W W1).
      * pose proof (n_low _ _ _ _ _ Hn W). lia.
  - destruct (own_pc s) eqn:E; try (apply (good_quiet s _ s); [cbn [cstep]; rewrite E; reflexivity|eapply inv_act; eauto|cbn [ev]; rewrite E; reflexivity|reflexivity]).
    destruct (who s b) as [[|j]|] eqn:Ew; try (apply (good_quiet s _ s); [cbn [cstep]; rewrite E, Ew; reflexivity|eapply inv_act; eauto|cbn [ev]; rewrite E, Ew; reflexivity|reflexivity]).
    eapply good_in with (b := b); [cbn [cstep]; rewrite E, Ew, Hr; reflexivity|eapply inv_act, act_free; eauto|cbn [ev]; rewrite E, Ew; reflexivity|exact Ew|reflexivity].
  - destruct (own_pc s) eqn:E; try (apply (good_quiet s _ s); [cbn [cstep]; rewrite E; reflexivity|eapply inv_act; eauto|cbn [ev]; rewrite E; reflexivity|reflexivity]).
    destruct (noz _ Hh) as (Z1 & Z2).
    eapply good_quiet; [cbn [cstep]; rewrite E, Z1; reflexivity|eapply inv_act, act_hdef; [exact Hn|intros []]|cbn [ev]; rewrite E, Z2; reflexivity|reflexivity].
  - apply (good_quiet s _ s); [cbn [cstep]; rewrite Hr; destruct (own_pc s); reflexivity|eapply inv_act; eauto|cbn [ev]; rewrite Hr; destruct (own_pc s); reflexivity|reflexivity].
  - destruct (who s b) as [h|] eqn:Ew; [|apply (good_quiet s _ s); [cbn [cstep]; rewrite Ew; reflexivity|eapply inv_act; eauto|reflexivity|reflexivity]].
    destruct (Nat.eqb h i) eqn:Ei; [|apply (good_quiet s _ s); [cbn [cstep]; rewrite Ew, Ei; reflexivity|eapply inv_act; eauto|reflexivity|reflexivity]].
    eexists. split; [cbn [cstep]; rewrite Ew, Ei; reflexivity|]. split; [eapply inv_act, act_give; eauto|].
    intros o (Ho1 & Ho2). exists o. split; [|intros h0 Hh0; exact Hh0]. split; [exact Ho1|]. intros y. flds. rewrite upd_eq, Ho2.
    destruct (Nat.eqb_spec y b) as [->|_]; [rewrite Ew; split; discriminate|reflexivity].
  - eapply good_quiet; [reflexivity|eapply inv_act, act_hdef; [exact Hn|]|reflexivity|reflexivity]. intros [Hx|Hx]; [discriminate|contradiction].
Qed.

(* nothing to do for the owner or for threads other than i when the span is quiet *)
Lemma quiet_step s a : Quiet cnt s -> part s = false ->
  match a with LThr _ | LAdopt | LReuse _ | LOther _ => True | _ => cstep cnt s a = Ok s /\ ev s a = [] end.
Proof.
  intros [Hp Hw Hc _] Hpt. destruct a; try exact I; cbn [cstep ev].
  - unfold own_step. rewrite Hp. auto.
  - destruct i; [auto|]. rewrite Hw. destruct (thr_pc s (S i)); auto.
  - rewrite Hp, Hc, Hpt. auto.
  - rewrite Hp, Hw. auto.
  - rewrite Hw. auto.
Qed.
Lemma hand_good s i a : Hand cnt s i -> good s a.
Proof.
  intros Hn. pose proof Hn as [Hq Hr Hh Hpt Ht Hoth]. pose proof Hq as [Hp Hw Hc Hqd].
  pose proof (quiet_step s a Hq Hpt) as QS.
  assert (I0 : inv cnt s) by (right; left; eauto).
  destruct a as [j| |j b|k|b| |k|j j' b|x]; try (destruct QS as (Q1 & Q2); apply (good_quiet s _ s Q1 I0 Q2); reflexivity).
  - destruct (Nat.eq_dec j i) as [->|Hne].
    + destruct Ht as [E|(h & E & Esf)].
      * eapply good_quiet; [cbn [cstep]; unfold thr_step; rewrite E, Hr; reflexivity| |reflexivity|reflexivity].
        right. left. exists i. constructor; flds; try assumption.
        -- constructor; flds; assumption.
        -- right. eexists. rewrite upd_eq, Nat.eqb_refl. split; reflexivity.
        -- intros j Hj. rewrite upd_eq. destruct (Nat.eqb_spec j i); [contradiction|apply Hoth; exact Hj].
      * assert (GF : good s (LThr i) \/ (hdef s = [] /\ h = []) \/ (exists x r r', hdef s = x :: r /\ h = x :: r')).
        { assert (IF : inv cnt (set_thr s i F3)).
          { right. left. exists i. constructor; flds; try assumption.
            - constructor; flds; assumption.
            - left. rewrite upd_eq, Nat.eqb_refl. reflexivity.
            - intros j Hj. rewrite upd_eq. destruct (Nat.eqb_spec j i); [contradiction|apply Hoth; exact Hj]. }
          destruct (hdef s) as [|x r] eqn:Eh, h as [|y r'].
          - right. left. auto.
          - left. eapply good_quiet; [cbn [cstep]; unfold thr_step; rewrite E, Eh; reflexivity|exact IF|reflexivity|reflexivity].
          - left. eapply good_quiet; [cbn [cstep]; unfold thr_step; rewrite E, Eh; reflexivity|exact IF|reflexivity|reflexivity].
          - destruct (Nat.eqb_spec x y) as [->|Hxy]; [right; right; eauto|].
            left. eapply good_quiet; [cbn [cstep]; unfold thr_step; rewrite E, Eh; rewrite (proj2 (Nat.eqb_neq x y) Hxy); reflexivity|exact IF|reflexivity|reflexivity]. }
        assert (WI : forall hd, count_occ Nat.eq_dec hd 0 = 1 -> inv cnt (set_thr (set_hdef s hd) i TIdle)).
        { intros hd Hhd. right. right. left. constructor; flds; try assumption.
          - constructor; flds; assumption.
          - intros j. rewrite upd_eq. destruct (Nat.eqb_spec j i); [reflexivity|apply Hoth; assumption]. }
        destruct GF as [GF|[(G1 & ->)|(x & r & r' & G1 & ->)]]; [exact GF| |].
        -- eapply good_quiet; [cbn [cstep]; unfold thr_step; rewrite E, G1; reflexivity|apply WI; reflexivity|reflexivity|reflexivity].
        -- eapply good_quiet; [cbn [cstep]; unfold thr_step; rewrite E, G1, Nat.eqb_refl; reflexivity|apply WI|reflexivity|reflexivity].
           rewrite count_occ_cons_eq by reflexivity. f_equal. apply count_occ_not_In. rewrite <- G1. exact Hh.
    + apply (good_quiet s _ s); [cbn [cstep]; unfold thr_step; rewrite (Hoth j Hne); reflexivity|exact I0|reflexivity|reflexivity].
  - destruct (noz _ Hh) as (Z1 & Z2).
    eapply good_quiet; [cbn [cstep]; rewrite Hp, Z1; reflexivity| |cbn [ev]; rewrite Hp, Z2; reflexivity|reflexivity].
    right. left. exists i. constructor; flds; try assumption; [constructor; flds; assumption|intros []].
  - apply (good_quiet s _ s); [cbn [cstep]; rewrite Hp, Hr; reflexivity|exact I0|cbn [ev]; rewrite Hp, Hr; reflexivity|reflexivity].
  - eapply good_quiet; [reflexivity| |reflexivity|reflexivity].
    right. left. exists i. constructor; flds; try assumption; [constructor; flds; assumption|]. intros [Hx|Hx]; [discriminate|contradiction].
Qed.
Lemma waits_good s a : Waits cnt s -> good s a.
Proof.
  intros Hn. pose proof Hn as [Hq Hr Hh Hpt Hsf Ht]. pose proof Hq as [Hp Hw Hc Hqd].
  pose proof (quiet_step s a Hq Hpt) as QS.
  assert (I0 : inv cnt s) by (right; right; left; eauto).
  destruct a as [j| |j b|k|b| |k|j j' b|x]; try (destruct QS as (Q1 & Q2); apply (good_quiet s _ s Q1 I0 Q2); reflexivity).
  - apply (good_quiet s _ s); [cbn [cstep]; unfold thr_step; rewrite (Ht j); reflexivity|exact I0|reflexivity|reflexivity].
  - destruct (onez _ Hh) as (Z1 & Z2).
    eapply good_back; [cbn [cstep]; rewrite Hp, Z1, Hr; reflexivity| |cbn [ev]; rewrite Hp, Z2; reflexivity|exact Hw|reflexivity].
    right. right. right. constructor; flds; try assumption; [|reflexivity|intros []].
    constructor; flds; try assumption. destruct Hqd as (d & Hd & _). exists d. split; [exact Hd|discriminate].
  - apply (good_quiet s _ s); [cbn [cstep]; rewrite Hp, Hr; reflexivity|exact I0|cbn [ev]; rewrite Hp, Hr; reflexivity|reflexivity].
  - eapply good_quiet; [reflexivity| |reflexivity|reflexivity].
    right. right. left. constructor; flds; try assumption. constructor; flds; assumption.
Qed.
Lemma gone_good s a : Gone cnt s -> good s a.
Proof.
  intros Hn. pose proof Hn as [Hq Hr Hh Hpt Ht]. pose proof Hq as [Hp Hw Hc Hqd].
  pose proof (quiet_step s a Hq Hpt) as QS.
  assert (I0 : inv cnt s) by (right; right; right; eauto).
  destruct a as [j| |j b|k|b| |k|j j' b|x]; try (destruct QS as (Q1 & Q2); apply (good_quiet s _ s Q1 I0 Q2); reflexivity).
  - apply (good_quiet s _ s); [cbn [cstep]; unfold thr_step; rewrite (Ht j); reflexivity|exact I0|reflexivity|reflexivity].
  - destruct (noz _ Hh) as (Z1 & Z2).
    eapply good_quiet; [cbn [cstep]; rewrite Hp, Z1; reflexivity| |cbn [ev]; rewrite Hp, Z2; reflexivity|reflexivity].
    right. right. right. constructor; flds; try assumption; [constructor; flds; assumption|intros []].
  - destruct (act_reuse s k Hn) as (s' & Hs & Ha). pose proof Hs as Hs'. cbn [cstep] in Hs'. rewrite Hp, Hr in Hs'. injection Hs' as <-.
    eapply good_out with (b := 0) (j := 0); [exact Hs|eapply inv_act; exact Ha|cbn [ev]; rewrite Hp, Hr; reflexivity|apply Hw|exact Hcnt|reflexivity].
  - eapply good_quiet; [reflexivity| |reflexivity|reflexivity].
    right. right. right. constructor; flds; try assumption; [constructor; flds; assumption|]. intros [Hx|Hx]; [discriminate|contradiction].
Qed.
Lemma inv_good s a : inv cnt s -> good s a.
Proof.
  intros [(D & sf & Hn)|[(i & Hn)|[Hn|Hn]]]; [eapply act_good|eapply hand_good|eapply waits_good|eapply gone_good]; eauto.
Qed.
Lemma inv0 : inv cnt cs0.
Proof. right. right. right. constructor; cbn; try reflexivity; [constructor; try reflexivity; exists []; split; [reflexivity|discriminate]|intros []]. Qed.

Lemma run_good l : forall s, inv cnt s -> exists s', crun cnt l s = Ok s' /\ inv cnt s' /\ forall o, outs s o -> fair cnt o (history cnt s l).
Proof.
  induction l as [|a r IH]; intros s Hi.
  - exists s. split; [reflexivity|]. split; [exact Hi|]. intros o _. exact I.
  - destruct (inv_good s a Hi) as (s1 & Hs & Hi1 & Ho). destruct (IH s1 Hi1) as (s' & Hr & Hi' & Hf).
    exists s'. cbn [crun history]. rewrite Hs. cbn [bind]. split; [exact Hr|]. split; [exact Hi'|].
    intros o Hoo. destruct (Ho o Hoo) as (o' & Ho1 & Ho2). apply Ho2, Hf, Ho1.
Qed.
Lemma run_inv l s : crun cnt l cs0 = Ok s -> inv cnt s.
Proof. intros Hr. destruct (run_good l cs0 inv0) as (s' & Hr' & Hi & _). congruence. Qed.

(* ---------- results ---------- *)
(* no access to the span after it went to the caches, no use of a link as a free list *)
Lemma safe l : exists s, crun cnt l cs0 = Ok s.
Proof. destruct (run_good l cs0 inv0) as (s & Hr & _). eauto. Qed.
Lemma callers l : fair cnt [] (history cnt cs0 l).
Proof. destruct (run_good l cs0 inv0) as (s & _ & _ & Hf). apply Hf. split; [constructor|]. intros b. cbn. split; [intros []|congruence]. Qed.

Lemma lock_one l s : crun cnt l cs0 = Ok s ->
  (dptr s = None <-> exists i, inside s i) /\ forall i j, inside s i -> inside s j -> i = j.
Proof.
  intros Hr. apply run_inv in Hr.
  assert (TI : forall i, inside s (S i) <-> tl (thr_pc s i) <> None).
  { intros i. cbn. destruct (thr_pc s i); cbn; split; intros Hx; try discriminate; try exact I; try contradiction; congruence. }
  assert (OI : inside s 0 <-> ol (own_pc s) <> None).
  { cbn. destruct (own_pc s); cbn; split; intros Hx; try discriminate; try exact I; try contradiction; congruence. }
  assert (NB : (forall i, tl (thr_pc s i) = None) -> ol (own_pc s) = None -> forall i, ~ inside s i).
  { intros Ht Ho [|i]; [rewrite OI|rewrite TI]; rewrite ?Ht, ?Ho; congruence. }
  destruct Hr as [(D & sf & Hn)|Hr].
  - pose proof (n_lock _ _ _ _ Hn) as Hk. unfold lockst in Hk. destruct (dptr s) as [d|].
    + destruct Hk as (_ & _ & K1 & K2). pose proof (NB K1 K2) as NB'. split; [split; [discriminate|intros (i & Hx); destruct (NB' i Hx)]|]. intros i j Hx. destruct (NB' i Hx).
    + destruct Hk as [(i & K1 & K2 & K3 & _)|(K1 & K2 & _)].
      * split; [split; [intros _; exists (S i); apply TI; congruence|reflexivity]|].
        assert (U : forall j, inside s j -> j = S i). { intros [|j]; [rewrite OI; congruence|]. rewrite TI. intros Hx. f_equal. apply K2. exact Hx. }
        intros j k Hj Hk. rewrite (U j Hj), (U k Hk). reflexivity.
      * split; [split; [intros _; exists 0; apply OI; congruence|reflexivity]|].
        assert (U : forall j, inside s j -> j = 0). { intros [|j]; [reflexivity|]. rewrite TI, K2. congruence. }
        intros j k Hj Hk. rewrite (U j Hj), (U k Hk). reflexivity.
  - assert (K : (forall i, tl (thr_pc s i) = None) /\ ol (own_pc s) = None /\ dptr s <> None).
    { assert (G : Quiet cnt s /\ forall i, tl (thr_pc s i) = None).
      { destruct Hr as [(k & [Hq _ _ _ Ht Hoth])|[[Hq _ _ _ _ Ht]|[Hq _ _ _ Ht]]]; (split; [exact Hq|]); intros i; try (rewrite Ht; reflexivity).
        destruct (Nat.eq_dec i k) as [->|Hne]; [|rewrite (Hoth i Hne); reflexivity]. destruct Ht as [E|(h & E & _)]; rewrite E; reflexivity. }
      destruct G as ([Hp _ _ (d & Hd & _)] & Ht). split; [exact Ht|]. rewrite Hp, Hd. split; [reflexivity|discriminate]. }
    destruct K as (K1 & K2 & K3). pose proof (NB K1 K2) as NB'.
    split; [split; [congruence|intros (i & Hx); destruct (NB' i Hx)]|]. intros i j Hx. destruct (NB' i Hx).
Qed.
(* whoever is inside leaves within three steps of its own *)
Lemma lock_end l s i : crun cnt l cs0 = Ok s -> inside s i ->
  exists n s', (n <= 3) /\ crun cnt (repeat (match i with O => LOwn | S i => LThr i end) n) s = Ok s' /\ dptr s' <> None.
Proof.
  intros Hr Hin. pose proof (run_inv l s Hr) as Hi.
  assert (Hrel : relsd s = false).
  { destruct Hi as [(D & sf & Hn)|[(k & Hn)|[Hn|Hn]]]; [apply (n_rel _ _ _ _ Hn)|apply (p_rel _ _ _ Hn)|apply (h_rel _ _ Hn)|].
    exfalso. destruct Hn as [[Hp _ _ _] _ _ _ Ht]. destruct i; cbn in Hin; [rewrite Hp in Hin|rewrite Ht in Hin]; exact Hin. }
  destruct i as [|i]; cbn in Hin.
  - destruct (own_pc s) eqn:E; try contradiction.
    + exists 3. eexists. split; [lia|]. cbn [repeat crun cstep]. unfold own_step at 1. rewrite E, Hrel. cbn [bind].
      unfold own_step at 1. flds. rewrite Hrel. cbn [bind]. unfold own_step at 1. flds. rewrite Hrel. cbn [bind]. split; [reflexivity|]. flds. discriminate.
    + exists 2. eexists. split; [lia|]. cbn [repeat crun cstep]. unfold own_step at 1. rewrite E, Hrel. cbn [bind].
      unfold own_step at 1. flds. rewrite Hrel. cbn [bind]. split; [reflexivity|]. flds. discriminate.
    + exists 1. eexists. split; [lia|]. cbn [repeat crun cstep]. unfold own_step at 1. rewrite E, Hrel. cbn [bind]. split; [reflexivity|]. flds. discriminate.
    + exists 1. eexists. split; [lia|]. cbn [repeat crun cstep]. unfold own_step at 1. rewrite E, Hrel. cbn [bind]. split; [reflexivity|]. flds. discriminate.
  - destruct (thr_pc s i) eqn:E; try contradiction.
    + exists 2. eexists. split; [lia|]. cbn [repeat crun cstep]. unfold thr_step at 1. rewrite E, Hrel. cbn [bind].
      unfold thr_step at 1. flds. rewrite upd_eq, Nat.eqb_refl, Hrel. cbn [bind]. split; [reflexivity|]. flds. discriminate.
    + exists 1. eexists. split; [lia|]. cbn [repeat crun cstep]. unfold thr_step at 1. rewrite E, Hrel. cbn [bind]. split; [reflexivity|]. flds. discriminate.
Qed.
(* while nobody is in a call every block of the span is in one place, and the counters are right *)
Lemma settled l s : crun cnt l cs0 = Ok s -> idle s -> relsd s = false ->
  (forall b, b < cnt -> exists w, is_at s b w /\ forall w', is_at s b w' -> w' = w)
  /\ exists d, dptr s = Some d /\ NoDup d /\ (~ In 0 (hdef s) -> lsz s = length d)
  /\ (~ In 0 (hdef s) -> exists f, sfree s = Some f /\ NoDup f /\ usd s + length f = lim s).
Proof.
  intros Hr (Ho & Ht) Hrel. destruct (run_inv l s Hr) as [(D & sf & Hn)|[(k & Hn)|[Hn|Hn]]].
  - pose proof Hn as [_ Hh Hs Hc HD Hf Hm Ha _ _ Hk Hu He Hop].
    unfold lockst in Hk. destruct (dptr s) as [d|] eqn:Ed.
    2:{ destruct Hk as [(i & Hx & _)|(Hx & _)]; [rewrite Ht in Hx|rewrite Ho in Hx]; discriminate Hx. }
    destruct Hk as (-> & Hz & _ & _). rewrite Ho in Hu. split; [|exists D; repeat split; auto; exists sf; repeat split; auto; lia].
    assert (E : forall b w, is_at s b w <-> match w with Caller => at_ s D sf b PWho | ClassList => at_ s D sf b PCls | Deferred => at_ s D sf b PDef | FreeList => at_ s D sf b PFree | Fresh => lim s <= b end).
    { intros b w. destruct w; cbn; try reflexivity.
      - rewrite Ed. split; [intros (l0 & Hl & Hi); congruence|intros Hi; exists D; auto].
      - rewrite Hs. split; [intros (l0 & Hl & Hi); congruence|intros Hi; exists sf; auto]. }
    intros b Hb. destruct (Nat.lt_ge_cases b (lim s)) as [Hlt|Hge].
    + destruct (proj2 (proj2 Ha) b Hlt) as (p & Hp).
      assert (U : forall w, is_at s b w -> match w with Caller => PWho | ClassList => PCls | Deferred => PDef | FreeList => PFree | Fresh => POwn end = p).
      { intros w Hw. apply E in Hw. destruct w; try (apply (n_two s D sf b _ _ Hn Hw Hp)). exfalso. lia. }
      assert (X : exists w, is_at s b w).
      { destruct p as [| | | |i|].
        - exists ClassList. apply E. exact Hp.
        - exists Deferred. apply E. exact Hp.
        - exists FreeList. apply E. exact Hp.
        - exists Caller. apply E. exact Hp.
        - cbn in Hp. rewrite Ht in Hp. discriminate Hp.
        - cbn in Hp. rewrite Ho in Hp. discriminate Hp. }
      destruct X as (w & Hw). exists w. split; [exact Hw|]. intros w' Hw'. pose proof (U w Hw) as U1. pose proof (U w' Hw') as U2.
      rewrite <- U1 in U2. destruct w, w'; try reflexivity; discriminate U2.
    + exists Fresh. split; [exact Hge|]. intros w Hw. apply E in Hw. destruct w; try reflexivity; pose proof (n_low s D sf b _ Hn Hw); lia.
  - exfalso. destruct (p_thr _ _ _ Hn) as [E|(h & E & _)]; rewrite Ht in E; discriminate E.
  - destruct Hn as [[Hp Hw Hc (D & Hd & HD)] Hr' Hh Hpt Hsf _]. destruct (HD Hr') as (ND & HD1 & Hl).
    assert (Z : In 0 (hdef s)) by (apply (count_occ_In Nat.eq_dec); lia).
    split; [|exists D; repeat split; auto; contradiction].
    intros b Hb. exists Deferred. split; [exists D; split; [exact Hd|apply HD1; exact Hb]|].
    intros w Hx. destruct w; cbn in Hx.
    + rewrite Hw in Hx. congruence.
    + rewrite Hc in Hx. destruct Hx.
    + reflexivity.
    + rewrite Hsf in Hx. destruct Hx as (f & Hf & _). discriminate Hf.
    + lia.
  - rewrite (r_rel _ _ Hn) in Hrel. discriminate Hrel.
Qed.
(* a span none of whose blocks is out can be found again: in the caches, in the heap's list (once), in the partial list,
   or through blocks of it in the class list *)
Lemma findable l s : crun cnt l cs0 = Ok s -> idle s -> (forall b, who s b = None) ->
  relsd s = true \/ count_occ Nat.eq_dec (hdef s) 0 = 1 \/ part s = true \/ cls s <> [].
Proof.
  intros Hr (Ho & Ht) Hw. destruct (run_inv l s Hr) as [(D & sf & Hn)|[(k & Hn)|[Hn|Hn]]].
  - right. right. pose proof Hn as [_ Hh Hs Hc HD Hf Hm Ha _ _ Hk Hu He Hop].
    unfold opst in Hop. rewrite Ho in Hop. destruct sf as [|x sf]; [|left; exact Hop].
    destruct (Nat.leb_spec cnt (lim s)) as [Hle|_]; [|left; exact Hop]. right. intros Hcl.
    assert (HL : forall b, b < lim s -> In b D).
    { intros b Hb. destruct (proj2 (proj2 Ha) b Hb) as (p & Hp). destruct p as [| | | |i|]; cbn in Hp.
      - rewrite Hcl in Hp. destruct Hp.
      - exact Hp.
      - destruct Hp.
      - rewrite Hw in Hp. congruence.
      - rewrite Ht in Hp. discriminate Hp.
      - rewrite Ho in Hp. discriminate Hp. }
    assert (Hlen : length (seq 0 (lim s)) <= length D).
    { apply NoDup_incl_length; [apply seq_NoDup|]. intros y Hy. apply HL. apply in_seq in Hy. lia. }
    rewrite seq_length in Hlen. lia.
  - exfalso. destruct (p_thr _ _ _ Hn) as [E|(h & E & _)]; rewrite Ht in E; discriminate E.
  - right. left. apply (h_hdef _ _ Hn).
  - left. apply (r_rel _ _ Hn).
Qed.
(* handed back at most once *)
Lemma once l s : crun cnt l cs0 = Ok s -> count_occ Nat.eq_dec (hdef s) 0 <= 1 /\ (In 0 (hdef s) -> relsd s = false /\ part s = false /\ forall b, who s b = None).
Proof.
  intros Hr. destruct (run_inv l s Hr) as [(D & sf & Hn)|[(k & Hn)|[Hn|Hn]]].
  - pose proof (n_hdef _ _ _ _ Hn) as Hh. split; [rewrite (proj1 (count_occ_not_In Nat.eq_dec _ _) Hh); lia|contradiction].
  - pose proof (p_hdef _ _ _ Hn) as Hh. split; [rewrite (proj1 (count_occ_not_In Nat.eq_dec _ _) Hh); lia|contradiction].
  - pose proof (h_hdef _ _ Hn) as Hh. split; [lia|]. intros _. split; [apply (h_rel _ _ Hn)|]. split; [apply (h_part _ _ Hn)|apply (q_who _ _ (h_q _ _ Hn))].
  - pose proof (r_hdef _ _ Hn) as Hh. split; [rewrite (proj1 (count_occ_not_In Nat.eq_dec _ _) Hh); lia|contradiction].
Qed.
End Cnt.

(* a span of two blocks, both back and nobody in a call, yet neither in the caches nor in the heap's list *)
Definition kept_run : list label := [LReuse 2; LAlloc 2; LGive 0 1 0; LFreeBy 1 0; LFree 1; LOwn; LOwn; LThr 1; LThr 1; LThr 1].
Definition kept_end : cs := match crun 2 kept_run cs0 with Ok s => s | _ => cs0 end.
Lemma kept : exists l s, crun 2 l cs0 = Ok s /\ idle s /\ (forall b, who s b = None) /\ cls s = [] /\ relsd s = false /\ hdef s = [].
Proof.
  exists kept_run, kept_end. split; [vm_compute; reflexivity|]. split; [split; [vm_compute; reflexivity|]|].
  - intros [|[|i]]; vm_compute; reflexivity.
  - split; [intros [|[|b]]; vm_compute; reflexivity|]. split; [vm_compute; reflexivity|]. split; vm_compute; reflexivity.
Qed.
