(* What releasing should do, and what it does if no text and no neighbour looks like something else *)
From Coq Require Import ZArith List Bool Lia.
From Verif Require Import Base DmModel.
Import ListNotations.
Open Scope Z_scope.

(* ---- What is asked for ---- *)
(* what happens to the block at b when the task ends *)
Definition due (x : Z * op) : list event :=
  let (b, o) := x in
  match o with
  | Text _ | Printf _ | Array _ _ => [Free b]
  | Func f y | Value f y => [Call f y; Free b]
  | Object _ dtor => [Call dtor b]
  end.
Definition object (x : Z * op) : bool := match snd x with Object _ _ => true | _ => false end.

(* the blocks of a task's operations *)
Definition items (place : nat -> Z) (l : list op) : list (Z * op) := combine (map place (seq 0 (length l))) l.

(* ---- Conditions ---- *)
(* the bytes the allocator keeps for a block *)
Definition need (M : Z) (o : op) : Z :=
  match o with
  | Text t => Z.of_nat (length t) + 2
  | Printf t => Z.of_nat (length t) + 1
  | Func _ _ | Value _ _ => 40
  | Array _ c => M + Z.of_nat (length c)
  | Object _ _ => 24
  end.
Definition size (M : Z) (o : op) : Z := (need M o + 15) / 16 * 16.

Definition byte (b : Z) : Prop := 0 <= b < 256.
Definition word (v : Z) : Prop := 0 <= v < 2 ^ 64.

(* a text that does not begin with the number of a type *)
Definition calm (t : list Z) : Prop :=
  ~ (exists b r, t = b :: r /\ In b [21; 35; 36; 37] /\ Forall (eq 0) (firstn 3 r)).

Definition proper (own : bool) (o : op) : Prop :=
  match o with
  | Text t => Forall byte t /\ calm t
  | Printf t => own = true /\ t <> [] /\ Forall byte t /\ calm t
  | Func f y | Value f y => word f /\ word y
  | Array ty c => In ty [31; 32; 33; 34]
  | Object ty dtor => In ty [21; 35; 36] /\ word dtor
  end.

Definition sep (M : Z) (x y : Z * op) : Prop :=
  fst x + size M (snd x) <= fst y \/ fst y + size M (snd y) <= fst x.
Definition apart (M : Z) (l : list (Z * op)) : Prop :=
  forall i j x y, i <> j -> nth_error l i = Some x -> nth_error l j = Some y -> sep M x y.
Definition placed (x : Z * op) : Prop := fst x mod 16 = 0 /\ 536870912 < fst x.

(* before a block that is no array, at the distance of an array's head, there is no number of an array type *)
Definition quiet (M : Z) (m : Z -> Z) (x : Z * op) : Prop :=
  match snd x with Array _ _ => True | _ => ~ In (val m (fst x - M) 4) [31; 32; 33; 34] end.

(* ---- Memory ---- *)
Lemma upd_same m a v : upd m a v a = v.
Proof. unfold upd. now rewrite Z.eqb_refl. Qed.
Lemma upd_other m a v x : x <> a -> upd m a v x = m x.
Proof. intro. unfold upd. destruct (Z.eqb_spec x a); [contradiction|reflexivity]. Qed.

Lemma put_out n : forall m a v x, x < a \/ a + Z.of_nat n <= x -> put m a n v x = m x.
Proof.
  induction n as [|n IH]; intros m a v x H; cbn [put]; [reflexivity|].
  rewrite IH by lia. apply upd_other. lia.
Qed.

Lemma fill_out l : forall m a x, x < a \/ a + Z.of_nat (length l) <= x -> fill m a l x = m x.
Proof.
  induction l as [|b l IH]; intros m a x H; cbn [fill length] in *; [reflexivity|].
  rewrite IH by lia. apply upd_other. lia.
Qed.

Lemma fill_in l : forall m a i, (i < length l)%nat -> fill m a l (a + Z.of_nat i) = nth i l 0.
Proof.
  induction l as [|b l IH]; intros m a i H; cbn [fill length] in *; [lia|].
  destruct i as [|i].
  - rewrite fill_out by lia. rewrite Z.add_0_r. now rewrite upd_same.
  - cbn [nth]. replace (a + Z.of_nat (S i)) with (a + 1 + Z.of_nat i) by lia. apply IH. lia.
Qed.

Lemma val_ext n : forall m m' a, (forall x, a <= x < a + Z.of_nat n -> m x = m' x) -> val m a n = val m' a n.
Proof.
  induction n as [|n IH]; intros m m' a H; cbn [val]; [reflexivity|].
  rewrite (H a) by lia. f_equal. f_equal. apply IH. intros. apply H. lia.
Qed.

Lemma val_put n : forall m a v, 0 <= v < 256 ^ Z.of_nat n -> val (put m a n v) a n = v.
Proof.
  induction n as [|n IH]; intros m a v H; cbn [val put].
  - cbn in H. lia.
  - rewrite put_out by lia. rewrite upd_same. rewrite IH.
    + pose proof (Z.div_mod v 256). lia.
    + rewrite Nat2Z.inj_succ, Z.pow_succ_r in H by lia.
      split; [apply Z.div_pos; lia|apply Z.div_lt_upper_bound; lia].
Qed.

Lemma val_put_out n k m a b v : b + Z.of_nat n <= a \/ a + Z.of_nat k <= b -> val (put m a k v) b n = val m b n.
Proof. intro H. apply val_ext. intros. apply put_out. lia. Qed.
Lemma val_fill_out n m a b l : b + Z.of_nat n <= a \/ a + Z.of_nat (length l) <= b -> val (fill m a l) b n = val m b n.
Proof. intro H. apply val_ext. intros. apply fill_out. lia. Qed.

(* the low half of a number of 8 bytes *)
Lemma val_low m a v : 0 <= v < 2 ^ 64 -> val (put m a 8 v) a 4 = v mod 2 ^ 32.
Proof.
  intro H.
  assert (E : forall n k m a v, val (put m a (n + k) v) a n = v mod 256 ^ Z.of_nat n).
  { clear. intros n k. induction n as [|n IH]; intros m a v.
    - cbn [val]. now rewrite Z.mod_1_r.
    - cbn [val Nat.add put]. rewrite put_out by lia. rewrite upd_same, IH.
      rewrite Nat2Z.inj_succ, Z.pow_succ_r by lia.
      rewrite Z.rem_mul_r by lia. reflexivity. }
  exact (E 4%nat 4%nat m a v).
Qed.

(* ---- What stands in a block ---- *)
Definition tells (m : Z -> Z) (x : Z * op) : Prop :=
  let (b, o) := x in
  match o with
  | Text _ | Printf _ => ~ In (val m b 4) [21; 35; 36; 37]
  | Func f y => val m b 4 = 37 /\ val m (b + 4) 4 = 1 /\ val m (b + 24) 8 = f /\ val m (b + 16) 8 = y
  | Value f y => val m b 4 = 37 /\ val m (b + 4) 4 = 0 /\ val m (b + 32) 8 = f /\ val m (b + 8) 8 = y
  | Array _ _ => In (val m b 4) [31; 32; 33; 34]
  | Object _ dtor => In (val m b 4) [21; 35; 36] /\ val m (b + 16) 8 = dtor
  end.

Definition ptr (M : Z) (x : Z * op) : Z := match snd x with Array _ _ => fst x + M | _ => fst x end.

Definition span (o : op) : Z :=
  match o with Text _ | Printf _ | Array _ _ => 4 | Func _ _ | Value _ _ => 40 | Object _ _ => 24 end.

Lemma need_pos M o : 0 < M -> 0 < need M o.
Proof. destruct o; cbn; lia. Qed.
Lemma size_16 M o : 0 < M -> 16 <= size M o /\ need M o <= size M o.
Proof.
  intro H. pose proof (need_pos M o H). unfold size. pose proof (Z.div_mod (need M o + 15) 16).
  pose proof (Z.mod_pos_bound (need M o + 15) 16). lia.
Qed.
Lemma span_size M o : 0 < M -> span o <= size M o.
Proof. intro H. pose proof (size_16 M o H) as (A & B). destruct o; cbn [span need] in *; lia. Qed.

Lemma tells_ext m m' x : (forall y, fst x <= y < fst x + span (snd x) -> m' y = m y) -> tells m x -> tells m' x.
Proof.
  destruct x as (b & o). cbn [fst snd]. intros H.
  assert (V : forall n c, b <= c -> c + Z.of_nat n <= b + span o -> val m' c n = val m c n).
  { intros n c L U. apply val_ext. intros. apply H. lia. }
  destruct o; cbn [tells span] in *; rewrite !V by (cbn; lia); auto.
Qed.

Section P.
Variables (link : Z -> Z) (head : Z -> option Z) (M : Z) (own : bool).
Hypothesis HM : 0 < M /\ M mod 8 = 0.
Hypothesis HL : forall a, word (link a) /\ ~ In (link a mod 2 ^ 32) [31; 32; 33; 34].

Lemma is_data_no m a : ~ In (val m (a - M) 4) [31; 32; 33; 34] -> is_data M m a = false.
Proof.
  intro N. unfold is_data. destruct (usable a); [|reflexivity]. cbn [andb].
  cbn [In] in N. set (t := val _ _ _) in *. clearbody t.
  destruct (Z.eqb_spec t 31); [lia|]. destruct (Z.eqb_spec t 33); [lia|].
  destruct (Z.eqb_spec t 34); [lia|]. destruct (Z.eqb_spec t 32); [lia|]. reflexivity.
Qed.

Lemma is_data_yes m a : usable a = true -> In (val m (a - M) 4) [31; 32; 33; 34] -> is_data M m a = true.
Proof.
  intros U N. unfold is_data. rewrite U. cbn [andb]. cbn [In] in N. set (t := val _ _ _) in *. clearbody t.
  destruct N as [<-|[<-|[<-|[<-|[]]]]]; reflexivity.
Qed.

Lemma drop_mid a l r : ~ In a l -> drop a (l ++ a :: r) = l ++ r.
Proof.
  induction l as [|x l IH]; intro N; cbn [drop app].
  - now rewrite Z.eqb_refl.
  - destruct (Z.eqb_spec x a) as [->|]; [exfalso; apply N; now left|]. f_equal. apply IH. intro. apply N. now right.
Qed.

Lemma has_mid a l r : has a (l ++ a :: r) = true.
Proof. unfold has. rewrite existsb_app. cbn. rewrite Z.eqb_refl. now rewrite orb_true_r. Qed.

(* one block: what is called and freed, and where memory changes *)
Lemma release_one s x l r : placed x -> tells (mem s) x -> quiet M (mem s) x -> live s = l ++ fst x :: r -> ~ In (fst x) l ->
  exists s', release link head M s (ptr M x) = Ok s' /\ out s' = out s ++ due x /\
    live s' = l ++ (if object x then [fst x] else []) ++ r /\
    (forall y, y < fst x \/ fst x + 8 <= y -> mem s' y = mem s y) /\
    (val (mem s') (fst x) 4 = val (mem s) (fst x) 4 \/ val (mem s') (fst x) 4 = link (fst x) mod 2 ^ 32).
Proof.
  intros (AL & HI) T Q L N. destruct x as (b & o). cbn [fst snd] in *.
  assert (U : usable b = true) by (unfold usable; apply Z.ltb_lt; lia).
  assert (UM : usable (b + M) = true) by (unfold usable; apply Z.ltb_lt; lia).
  assert (LW : 0 <= link b < 2 ^ 64) by apply HL.
  assert (P : forall m, val (put m b 8 (link b)) b 4 = link b mod 2 ^ 32) by (intro; now apply val_low).
  unfold release, ptr. cbn [snd].
  assert (FR : forall s0, live s0 = live s -> free link head s0 b =
    Ok (mkSt (put (mem s0) b 8 (link b)) (l ++ r) (sys s0) (gar s0) (cnt s0) (out s0 ++ [Free b]))).
  { intros s0 E. unfold free. rewrite E, L, has_mid, drop_mid by exact N. reflexivity. }
  assert (W : forall m y, y < b \/ b + 8 <= y -> put m b 8 (link b) y = m y) by (intros; now apply put_out).
  assert (W4 : forall m v y, y < b \/ b + 8 <= y -> put m b 4 v y = m y) by (intros; apply put_out; lia).
  destruct o as [t|t|f y|f y|ty c|ty dt]; cbn [quiet snd fst tells due object] in *;
    [| | | |cbn [fst]; rewrite UM|]; try rewrite U.
  - rewrite is_data_no by exact Q. set (v := val (mem s) b 4) in *. cbn [In] in T.
    destruct (Z.eqb_spec v 37); [lia|]. destruct (Z.eqb_spec v 21); [lia|]. destruct (Z.eqb_spec v 35); [lia|].
    destruct (Z.eqb_spec v 36); [lia|]. cbn [orb]. rewrite FR by reflexivity. eexists. split; [reflexivity|]. cbn [out live mem].
    split; [reflexivity|]. split; [reflexivity|]. split; [apply W|]. right. apply P.
  - rewrite is_data_no by exact Q. set (v := val (mem s) b 4) in *. cbn [In] in T.
    destruct (Z.eqb_spec v 37); [lia|]. destruct (Z.eqb_spec v 21); [lia|]. destruct (Z.eqb_spec v 35); [lia|].
    destruct (Z.eqb_spec v 36); [lia|]. cbn [orb]. rewrite FR by reflexivity. eexists. split; [reflexivity|]. cbn [out live mem].
    split; [reflexivity|]. split; [reflexivity|]. split; [apply W|]. right. apply P.
  - destruct T as (T1 & T2 & T3 & T4). rewrite is_data_no by exact Q. rewrite T1. cbn [Z.eqb Pos.eqb].
    cbn [mem poke]. rewrite val_put_out by lia. rewrite T2. cbn [Z.eqb]. rewrite !val_put_out by lia. rewrite T3, T4.
    rewrite FR by reflexivity. eexists. split; [reflexivity|]. cbn [out live mem call poke].
    split; [now rewrite <- app_assoc|]. split; [reflexivity|]. split; [|right; apply P].
    intros z HZ. rewrite W by exact HZ. now apply W4.
  - destruct T as (T1 & T2 & T3 & T4). rewrite is_data_no by exact Q. rewrite T1. cbn [Z.eqb Pos.eqb].
    cbn [mem poke]. rewrite val_put_out by lia. rewrite T2. cbn [Z.eqb]. rewrite !val_put_out by lia. rewrite T3, T4.
    rewrite FR by reflexivity. eexists. split; [reflexivity|]. cbn [out live mem call poke].
    split; [now rewrite <- app_assoc|]. split; [reflexivity|]. split; [|right; apply P].
    intros z HZ. rewrite W by exact HZ. now apply W4.
  - rewrite is_data_yes; [|unfold usable; apply Z.ltb_lt; lia|now replace (b + M - M) with b by lia].
    replace (b + M - M) with b by lia. rewrite FR by reflexivity. eexists. split; [reflexivity|]. cbn [out live mem poke].
    split; [reflexivity|]. split; [reflexivity|]. split; [|right; apply P].
    intros z HZ. rewrite W by exact HZ. now apply W4.
  - destruct T as (T1 & T2). rewrite is_data_no by exact Q. set (v := val (mem s) b 4) in *.
    assert (E : (v =? 37) = false /\ (v =? 21) || (v =? 35) || (v =? 36) = true).
    { cbn [In] in T1. destruct T1 as [<-|[<-|[<-|[]]]]; split; reflexivity. }
    destruct E as (E1 & E2). rewrite E1, E2, T2. eexists. split; [reflexivity|]. cbn [out live mem call].
    split; [reflexivity|]. split; [rewrite L; reflexivity|]. split; [reflexivity|]. now left.
Qed.

Lemma apart_nodup l : apart M l -> NoDup (map fst l).
Proof.
  clear - HM.
  intro A. apply NoDup_nth_error. intros i j Hi E. rewrite map_length in Hi.
  destruct (Nat.eq_dec i j) as [|D]; [assumption|exfalso].
  rewrite !nth_error_map in E.
  destruct (nth_error l i) as [x|] eqn:Ei; [|apply nth_error_None in Ei; lia].
  destruct (nth_error l j) as [y|] eqn:Ej; [|discriminate]. cbn in E. injection E as E.
  pose proof (size_16 M (snd x) (proj1 HM)). pose proof (size_16 M (snd y) (proj1 HM)).
  destruct (A _ _ _ _ D Ei Ej); lia.
Qed.

Lemma apart_pre l x : apart M (l ++ [x]) -> apart M l /\ (forall y, In y l -> sep M y x).
Proof.
  clear.
  intro A. split.
  - intros i j y z D Ei Ej. eapply (A i j); [exact D| |]; rewrite nth_error_app1; auto; apply nth_error_Some; congruence.
  - intros y H. apply In_nth_error in H as (i & E). assert (i < length l)%nat by (apply nth_error_Some; congruence).
    apply (A i (length l)); [lia|rewrite nth_error_app1; auto|]. rewrite nth_error_app2, Nat.sub_diag by lia. reflexivity.
Qed.

(* a block elsewhere stays quiet when the first 8 bytes of another are overwritten so *)
Lemma quiet_keep m m' b y : b mod 16 = 0 -> placed y ->
  (forall z, z < b \/ b + 8 <= z -> m' z = m z) -> val m' b 4 = val m b 4 \/ val m' b 4 = link b mod 2 ^ 32 ->
  quiet M m y -> quiet M m' y.
Proof.
  intros AB (AY & _) MO MV Q. unfold quiet in *. destruct (snd y); auto.
  all: destruct (Z.eq_dec (fst y - M) b) as [D|D];
    [rewrite D in *; destruct MV as [-> | ->]; [exact Q|apply HL]|];
    rewrite (val_ext 4 m' m); [exact Q|]; intros z Hz; apply MO;
    pose proof (Z.div_mod (fst y) 16); pose proof (Z.div_mod b 16); pose proof (Z.div_mod M 8); lia.
Qed.

Lemma release_list l : forall s r, Forall placed l -> Forall (tells (mem s)) l -> Forall (quiet M (mem s)) l -> apart M l ->
  live s = map fst l ++ r ->
  exists s', release_all link head M s (rev (map (ptr M) l)) = Ok s' /\ out s' = out s ++ flat_map due (rev l) /\
    live s' = map fst (filter object l) ++ r /\
    (forall y, placed y -> quiet M (mem s) y -> quiet M (mem s') y) /\
    (forall z, (forall x, In x l -> z < fst x \/ fst x + 8 <= z) -> mem s' z = mem s z).
Proof.
  induction l as [|x l IH] using rev_ind; intros s r PL T Q A L.
  - exists s. cbn. rewrite app_nil_r. auto.
  - apply Forall_app in PL as (PL & PX), T as (T & TX), Q as (Q & QX).
    apply Forall_inv in PX, TX, QX.
    pose proof (apart_nodup _ A) as ND. rewrite map_app in ND, L. cbn [map] in ND, L.
    apply apart_pre in A as (A & AX). rewrite <- app_assoc in L. cbn [app] in L.
    assert (NI : ~ In (fst x) (map fst l)). { apply NoDup_remove_2 in ND. now rewrite app_nil_r in ND. }
    destruct (release_one s x _ _ PX TX QX L NI) as (s1 & E & O & L1 & MO & MV).
    rewrite map_app, rev_app_distr, rev_app_distr. cbn [map rev app release_all flat_map]. rewrite E. cbn [bind].
    assert (QK : forall y, placed y -> quiet M (mem s) y -> quiet M (mem s1) y).
    { intros y PY. eapply quiet_keep; [exact (proj1 PX)|exact PY|exact MO|exact MV]. }
    destruct (IH s1 ((if object x then [fst x] else []) ++ r)) as (s2 & E2 & O2 & L2 & Q2 & M2); auto.
    + rewrite Forall_forall in T |- *. intros y Iy. eapply tells_ext; [|exact (T y Iy)].
      intros z Hz. apply MO. pose proof (span_size M (snd y) (proj1 HM)). pose proof (size_16 M (snd x) (proj1 HM)).
      destruct (AX y Iy); lia.
    + rewrite Forall_forall in Q, PL |- *. intros y Iy. auto.
    + exists s2. split; [exact E2|]. split; [rewrite O2, O, <- app_assoc; reflexivity|]. split; [|split].
      * rewrite L2, filter_app, map_app, <- app_assoc. f_equal. cbn [filter]. destruct (object x); reflexivity.
      * intros y PY QY. apply Q2; auto.
      * intros z HZ. rewrite M2; [apply MO|]; intros; apply HZ; apply in_or_app; [right; now left|now left].
Qed.
End P.
