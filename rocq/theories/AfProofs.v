(* Masks as sets. *)
From Coq Require Import ZArith List Bool Lia.
From Verif Require Import Base AfModel.
Import ListNotations.
Local Open Scope Z_scope.

Lemma bit_lor v i j : 0 <= i -> Z.testbit (Z.lor v (Z.shiftl 1 i)) j = Z.testbit v j || (i =? j).
Proof. intros. rewrite Z.lor_spec, Z.shiftl_1_l, Z.pow2_bits_eqb by lia. reflexivity. Qed.

(* Linux *)
Lemma nth_set {A} (l : list A) k x d j : (k < length l)%nat -> nth j (set_nth k x l) d = if Nat.eqb j k then x else nth j l d.
Proof.
  revert k j. induction l as [|a l IH]; intros k j L; simpl in *; [lia|].
  destruct k, j; simpl; auto. apply IH. lia.
Qed.
Lemma rd_nth {A} (l : list A) k d : (k < length l)%nat -> rd l k = Ok (nth k l d).
Proof. intros L. unfold rd. rewrite (nth_error_nth' l d L). reflexivity. Qed.
Lemma wr_ok {A} (l : list A) k x : (k < length l)%nat -> wr l k x = Ok (set_nth k x l).
Proof. intros L. unfold wr. destruct (Nat.ltb_spec k (length l)); [reflexivity|lia]. Qed.

Lemma set_has m i : length m = 16%nat -> 0 <= i ->
  exists m', linux_set m i = Ok m' /\ length m' = 16%nat /\
    forall j, 0 <= j -> linux_has m' j = linux_has m j || ((i <? 1024) && (i =? j)).
Proof.
  intros L P. unfold linux_set. destruct (Z.ltb_spec (i / 8) 128) as [Q|Q].
  - assert (i < 1024) by (pose proof (Z.div_mod i 8); pose proof (Z.mod_pos_bound i 8); lia).
    assert (B : 0 <= i / 64 < 16) by (split; [apply Z.div_pos; lia|apply Z.div_lt_upper_bound; lia]).
    rewrite (rd_nth m _ 0) by lia. cbn [bind]. rewrite wr_ok by lia. eexists. split; [reflexivity|]. split; [rewrite set_nth_length; auto|].
    intros j J. unfold linux_has. rewrite nth_set by lia. replace (i <? 1024) with true by (symmetry; apply Z.ltb_lt; lia). cbn [andb].
    pose proof (Z.mod_pos_bound i 64 ltac:(lia)). pose proof (Z.div_mod i 64 ltac:(lia)). pose proof (Z.div_mod j 64 ltac:(lia)).
    pose proof (Z.mod_pos_bound j 64 ltac:(lia)). assert (0 <= j / 64) by (apply Z.div_pos; lia).
    destruct (Nat.eqb_spec (Z.to_nat (j / 64)) (Z.to_nat (i / 64))) as [E|E].
    + apply Z2Nat.inj in E; try lia. rewrite bit_lor by lia. rewrite E. f_equal. apply eq_true_iff_eq. rewrite !Z.eqb_eq. split; intros; [|subst; auto]. lia.
    + replace (i =? j) with false; [rewrite orb_false_r; auto|]. symmetry. apply Z.eqb_neq. intros ->. auto.
  - assert (1024 <= i) by (pose proof (Z.div_mod i 8 ltac:(lia)); pose proof (Z.mod_pos_bound i 8 ltac:(lia)); lia).
    exists m. split; auto. split; auto. intros j J. replace (i <? 1024) with false by (symmetry; apply Z.ltb_ge; lia).
    cbn [andb]. rewrite orb_false_r. auto.
Qed.
Lemma sets_has l : forall m, length m = 16%nat -> Forall (Z.le 0) l ->
  exists m', sets linux_set m l = Ok m' /\ length m' = 16%nat /\
    forall j, 0 <= j -> linux_has m' j = true <-> linux_has m j = true \/ In j l /\ j < 1024.
Proof.
  induction l as [|i l IH]; intros m L F; simpl.
  - exists m. split; auto. split; auto. intros. tauto.
  - inversion_clear F. destruct (set_has m i L) as (m1 & -> & L1 & H1); auto. cbn [bind].
    destruct (IH m1 L1) as (m' & -> & L' & H'); auto. exists m'. split; auto. split; auto.
    intros j J. rewrite H', H1, orb_true_iff, andb_true_iff, Z.ltb_lt, Z.eqb_eq by auto. intuition (subst; auto).
Qed.
Lemma zero_has j : linux_has linux_zero j = false.
Proof.
  unfold linux_has. replace (nth _ linux_zero 0) with 0; [apply Z.bits_0|]. unfold linux_zero. generalize (Z.to_nat (j / 64)), 16%nat.
  induction n as [|n IH]; intros [|q]; simpl; auto.
Qed.
Lemma has_below m j : length m = 16%nat -> 1024 <= j -> linux_has m j = false.
Proof.
  intros L J. unfold linux_has. rewrite nth_overflow; [apply Z.bits_0|]. assert (16 <= j / 64) by (apply Z.div_le_lower_bound; lia). lia.
Qed.

(* the thread may run on these *)
Definition only (f : Z -> bool) (P : Z -> Prop) : Prop := forall j, 0 <= j -> f j = true <-> P j.

Lemma linux_ok avail now l : Forall (Z.le 0) l ->
  exists m, sets linux_set linux_zero l = Ok m /\
    let r := linux_affinity avail m now in
    ((exists i, In i l /\ i < 1024 /\ avail i = true) -> fst r = 0 /\ only (snd r) (fun j => In j l /\ j < 1024 /\ avail j = true)) /\
    (~ (exists i, In i l /\ i < 1024 /\ avail i = true) -> r = (22, now)).
Proof.
  intros F. destruct (sets_has l linux_zero) as (m & E & L & H); auto. exists m. split; auto.
  assert (H0 : forall j, 0 <= j -> linux_has m j = true <-> In j l /\ j < 1024).
  { intros j J. rewrite H, zero_has by auto. intuition discriminate. }
  rewrite Forall_forall in F. cbv zeta. unfold linux_affinity. destruct (existsb _ _) eqn:X.
  - split.
    + intros _. cbn [fst snd]. split; auto. intros j J. rewrite andb_true_iff, H0 by auto. tauto.
    + intros N. exfalso. apply N. apply existsb_exists in X. destruct X as (i & I1 & I2). apply in_map_iff in I1.
      destruct I1 as (k & <- & _). apply andb_true_iff in I2. rewrite H0 in I2 by lia. exists (Z.of_nat k). tauto.
  - split; auto. intros (i & I1 & I2 & I3). exfalso. rewrite <- not_true_iff_false in X. apply X. apply existsb_exists. exists i. split.
    + apply in_map_iff. exists (Z.to_nat i). pose proof (F i I1). rewrite in_seq. lia.
    + apply andb_true_iff. rewrite H0; auto.
Qed.

(* Windows and macOS: one number *)
Lemma sets_one f lim : (forall v i, i < lim -> f v i = Ok (Z.lor v (Z.shiftl 1 i))) -> forall l v, 0 <= v ->
  Forall (fun i => 0 <= i < lim) l ->
  exists v', sets f v l = Ok v' /\ 0 <= v' /\ forall j, Z.testbit v' j = true <-> Z.testbit v j = true \/ In j l.
Proof.
  intros Ef. induction l as [|i l IH]; intros v V F; simpl.
  - exists v. split; auto. split; auto. intros. tauto.
  - inversion_clear F as [|? ? P F']. rewrite Ef by lia. cbn [bind]. destruct (IH (Z.lor v (Z.shiftl 1 i))) as (v' & -> & V' & H); auto.
    { apply Z.lor_nonneg. split; auto. apply Z.shiftl_nonneg. lia. }
    exists v'. split; auto. split; auto. intros j. rewrite H, bit_lor, orb_true_iff, Z.eqb_eq by lia. tauto.
Qed.
Lemma sets_big {M} (f : M -> Z -> outcome M) (Q : Z -> Prop) :
  (forall m i, Q i -> f m i = UB) -> (forall m i, Q i \/ exists m', f m i = Ok m') ->
  forall l m, Exists Q l -> sets f m l = UB.
Proof.
  intros B D. induction l as [|i l IH]; intros m E; inversion_clear E as [? ? H|? ? H]; simpl.
  - rewrite B; auto.
  - destruct (D m i) as [X|(m' & ->)]; [rewrite B; auto|]. cbn [bind]. auto.
Qed.

Lemma bits_eq a b : 0 <= a -> 0 <= b -> (forall j, 0 <= j -> Z.testbit a j = Z.testbit b j) -> a = b.
Proof. intros. apply Z.bits_inj'. auto. Qed.

Lemma win_ok w p now l : Forall (fun i => 0 <= i < w) l ->
  exists v, sets (win_set w) 0 l = Ok v /\
    let r := win_affinity p v now in
    (l <> [] /\ (forall i, In i l -> Z.testbit p i = true) -> fst r = 0 /\ only (Z.testbit (snd r)) (fun j => In j l)) /\
    (~ (l <> [] /\ forall i, In i l -> Z.testbit p i = true) -> r = (1, now)).
Proof.
  intros F. destruct (sets_one (win_set w) w) with (l := l) (v := 0) as (v & E & V & H); auto; [|lia|].
  { intros v i L. unfold win_set. destruct (Z.leb_spec w i); [lia|reflexivity]. }
  exists v. split; auto. assert (H0 : forall j, Z.testbit v j = true <-> In j l).
  { intros j. rewrite H, Z.bits_0. intuition discriminate. }
  assert (X : (v =? 0) || negb (Z.land v p =? v) = false <-> l <> [] /\ forall i, In i l -> Z.testbit p i = true).
  { rewrite orb_false_iff, negb_false_iff, Z.eqb_neq, Z.eqb_eq. split; intros [A B]; split.
    - intros ->. apply A. apply Z.bits_inj'. intros n _. rewrite Z.bits_0. apply not_true_iff_false. rewrite H0. auto.
    - intros i I1. rewrite <- H0 in I1. rewrite <- B in I1. rewrite Z.land_spec in I1. apply andb_true_iff in I1. tauto.
    - intros ->. destruct l as [|i l]; [congruence|]. pose proof (proj2 (H0 i) (or_introl eq_refl)) as Q. rewrite Z.bits_0 in Q. discriminate.
    - apply Z.bits_inj'. intros n _. rewrite Z.land_spec. destruct (Z.testbit v n) eqn:T; auto. cbn [andb]. apply B. apply H0. auto. }
  cbv zeta. unfold win_affinity. destruct ((v =? 0) || negb (Z.land v p =? v)).
  - split; auto. intros Y. apply X in Y. discriminate.
  - split; [|intros N; exfalso; apply N; apply X; auto]. intros _. split; auto. intros j _. apply H0.
Qed.
Lemma win_big w v l : Exists (fun i => w <= i) l -> sets (win_set w) v l = UB.
Proof.
  apply sets_big; intros m i; unfold win_set; destruct (Z.leb_spec w i); eauto; lia.
Qed.

Lemma find_ok n : forall core c, 0 <= core -> core + Z.of_nat n = 32 ->
  (forall t, core <= t < 31 -> Z.testbit c t = true -> (forall j, core <= j < t -> Z.testbit c j = false) -> mac_find n core c = Ok t) /\
  ((forall j, core <= j < 31 -> Z.testbit c j = false) -> core < 32 -> mac_find n core c = UB).
Proof.
  induction n as [|n IH]; intros core c P Q; cbn [mac_find]; [split; intros; lia|]. split.
  - intros t B T L. destruct (Z.leb_spec 31 core); [lia|]. destruct (Z.testbit c core) eqn:K.
    + destruct (Z.eq_dec core t) as [->|N]; auto. rewrite L in K by lia. discriminate.
    + assert (core <> t) by congruence. apply (proj1 (IH (core + 1) c ltac:(lia) ltac:(lia))); auto; try lia. intros. apply L. lia.
  - intros L _. destruct (Z.leb_spec 31 core); auto. rewrite L by lia. apply (proj2 (IH (core + 1) c ltac:(lia) ltac:(lia))); try lia. intros. apply L. lia.
Qed.
Lemma mac_ok l t : Forall (fun i => 0 <= i < 31) l -> In t l -> (forall i, In i l -> t <= i) ->
  exists c, sets mac_set 0 l = Ok c /\ mac_affinity c = Ok (0, t).
Proof.
  intros F I1 Mn. destruct (sets_one mac_set 31) with (l := l) (v := 0) as (c & E & V & H); auto; [|lia|].
  { intros v i L. unfold mac_set. destruct (Z.leb_spec 31 i); [lia|reflexivity]. }
  exists c. split; auto. unfold mac_affinity. rewrite Forall_forall in F. pose proof (F t I1).
  rewrite (proj1 (find_ok 32 0 c ltac:(lia) eq_refl) t); auto; try lia.
  - rewrite H. auto.
  - intros j B. apply not_true_iff_false. rewrite H, Z.bits_0. intros [X|X]; [discriminate|]. apply Mn in X. lia.
Qed.
Lemma mac_none : mac_affinity 0 = UB.
Proof. reflexivity. Qed.
Lemma mac_big c l : Exists (fun i => 31 <= i) l -> sets mac_set c l = UB.
Proof.
  apply sets_big; intros m i; unfold mac_set; destruct (Z.leb_spec 31 i); eauto; lia.
Qed.

Lemma all_ok n : forall i c, 0 <= i -> i + Z.of_nat n <= 31 ->
  exists c', mac_all n i c = Ok c' /\ forall j, Z.testbit c' j = true <-> Z.testbit c j = true \/ i <= j < i + Z.of_nat n.
Proof.
  induction n as [|n IH]; intros i c P B; cbn [mac_all].
  - exists c. split; auto. intros j. split; auto. intros [X|X]; auto. lia.
  - destruct (Z.leb_spec 31 i); [lia|]. destruct (IH (i + 1) (Z.lor c (Z.shiftl 1 i))) as (c' & -> & H1); try lia.
    exists c'. split; auto. intros j. rewrite H1, bit_lor, orb_true_iff, Z.eqb_eq by lia. split.
    + intros [[X|X]|X]; auto; right; lia.
    + intros [X|X]; auto. destruct (Z.eq_dec i j); auto. right. lia.
Qed.
Lemma all_many n : forall i c, 0 <= i <= 31 -> 31 < i + Z.of_nat n -> mac_all n i c = UB.
Proof.
  induction n as [|n IH]; intros i c P B; cbn [mac_all]; [lia|]. destruct (Z.leb_spec 31 i); auto. apply IH; lia.
Qed.
Lemma mac_cores n : (n <= 31)%nat -> exists c, mac_getaffinity n = Ok c /\ only (Z.testbit c) (fun j => j < Z.of_nat n).
Proof.
  intros L. destruct (all_ok n 0 0) as (c & E & H); try lia. exists c. split; auto. intros j J. rewrite H, Z.bits_0.
  split; [intros [X|X]; [discriminate|lia]|lia].
Qed.
Lemma mac_many n : (31 < n)%nat -> mac_getaffinity n = UB.
Proof. intros. apply all_many; lia. Qed.
