(* Runs of spans: what is asked (a small account of mapped memory and runs in use), and the bookkeeping of one step. *)
From Verif Require Import Base RunModel.
Local Open Scope Z_scope.

(* ---- what is asked ---- *)
(* bytes the kernel gave and did not get back; runs in use: first span and number of spans; threads with their heaps *)
Record spec := { mapped : list (Z * Z); held : list (Z * Z); user : list (nat * nat) }.
Definition spec0 : spec := {| mapped := []; held := []; user := [] |}.
Definition pair_eqb (x y : Z * Z) : bool := (fst x =? fst y) && (snd x =? snd y).
Definition after1 (z : spec) (e : ev) : spec :=
  match e with
  | EMap a len => {| mapped := (a, len) :: mapped z; held := held z; user := user z |}
  | ERelease a len => {| mapped := filter (fun x => negb (pair_eqb x (a, len))) (mapped z); held := held z; user := user z |}
  | ETake _ _ (Some r) => {| mapped := mapped z; held := r :: held z; user := user z |}
  | EFree _ s => {| mapped := mapped z; held := filter (fun x => negb (fst x =? s)) (held z); user := user z |}
  | EHeap t h => {| mapped := mapped z; held := held z; user := (t, h) :: user z |}
  | ELeave t h => {| mapped := mapped z; held := held z; user := filter (fun x => negb (Nat.eqb (fst x) t)) (user z) |}
  | EDone => {| mapped := mapped z; held := []; user := user z |}
  | _ => z
  end.
Fixpoint after (l : list ev) : spec := match l with [] => spec0 | e :: r => after1 (after r) e end.
Definition inside (z : spec) (a len : Z) : Prop := exists b k, In (b, k) (mapped z) /\ b <= a /\ a + len <= b + k.
Definition unused (z : spec) (a len : Z) : Prop := forall s n, In (s, n) (held z) -> a + len <= s * SPAN \/ (s + n) * SPAN <= a.
Definition fair1 (z : spec) (e : ev) : Prop :=
  match e with
  | EMap _ _ => True
  | EDrop a len => inside z a len /\ unused z a len
  | ERelease a len => In (a, len) (mapped z) /\ unused z a len
  | ETake _ n (Some (s, k)) => 1 <= n <= k /\ inside z (s * SPAN) (k * SPAN) /\ unused z (s * SPAN) (k * SPAN)
  | ETake _ _ None => True
  | EFree _ s => exists n, In (s, n) (held z)
  | EHeap t h => (forall k, ~ In (t, k) (user z)) /\ forall u, ~ In (u, h) (user z)
  | ELeave t h => In (t, h) (user z)
  | EDone => True
  end.
Fixpoint fair (l : list ev) : Prop := match l with [] => True | e :: r => fair1 (after r) e /\ fair r end.
(* the kernel gives pages nobody has *)
Definition honest (z : spec) (mm : option Z) (len : Z) : Prop :=
  match mm with None => True | Some a => 0 <= a /\ a mod 4096 = 0 /\ forall b k, In (b, k) (mapped z) -> a + len <= b \/ b + k <= a end.

(* ---- sums over a mapping ---- *)
Definition tag : Type := (nat * Z)%type.
(* where a piece of a mapping is: kept in a list, a reserve, the memory of heaps, in use, on its way; [TMP] the rest of a new mapping *)
Inductive gp := At (p : place) | RS (h : nat) | HP | HELD | FL | TMP.
Definition ghost := Z -> option (gp * Z * tag).
Definition wt (x : option (gp * Z * tag)) : Z := match x with Some (_, n, _) => n | None => 0 end.
Fixpoint gs (g : ghost) (m : Z) (k : nat) : Z := match k with O => 0 | S k => gs g m k + wt (g (m + Z.of_nat k)) end.
Definition gsum (g : ghost) (m T : Z) : Z := gs g m (Z.to_nat T).
Definition upd (g : ghost) (s : Z) v : ghost := fun x => if s =? x then v else g x.
Lemma upd_same g s v : upd g s v s = v.
Proof. unfold upd. now rewrite Z.eqb_refl. Qed.
Lemma upd_other g s v x : x <> s -> upd g s v x = g x.
Proof. unfold upd. intros H. destruct (Z.eqb_spec s x); congruence. Qed.
Lemma gs_ext g g' m k : (forall x, m <= x < m + Z.of_nat k -> wt (g x) = wt (g' x)) -> gs g m k = gs g' m k.
Proof. induction k as [|k IH]; intros H; cbn; [reflexivity|]. rewrite IH, H; [reflexivity|lia|]. intros x X. apply H. lia. Qed.
Lemma gsum_ext g g' m T : (forall x, m <= x < m + T -> wt (g x) = wt (g' x)) -> gsum g m T = gsum g' m T.
Proof. intros H. apply gs_ext. intros x X. apply H. lia. Qed.
Lemma gs_upd g s v m k : m <= s < m + Z.of_nat k -> gs (upd g s v) m k = gs g m k - wt (g s) + wt v.
Proof.
  induction k as [|k IH]; intros H; [lia|]. cbn. destruct (Z.eq_dec s (m + Z.of_nat k)) as [->|NE].
  - rewrite upd_same. rewrite (gs_ext (upd g (m + Z.of_nat k) v) g); [lia|]. intros x X. rewrite upd_other; [reflexivity|lia].
  - rewrite (upd_other g s v) by lia. rewrite IH; lia.
Qed.
Lemma gsum_upd g s v m T : m <= s < m + T -> gsum (upd g s v) m T = gsum g m T - wt (g s) + wt v.
Proof. intros H. apply gs_upd. lia. Qed.
Lemma gsum_out g s v m T : s < m \/ m + T <= s -> gsum (upd g s v) m T = gsum g m T.
Proof. intros H. apply gsum_ext. intros x X. rewrite upd_other; [reflexivity|lia]. Qed.
Lemma gs_zero g m k : (forall x, 0 <= wt (g x)) -> gs g m k <= 0 -> forall x, m <= x < m + Z.of_nat k -> wt (g x) = 0.
Proof.
  intros P. assert (N : forall j, 0 <= gs g m j) by (intros j; induction j; cbn; [lia|]; specialize (P (m + Z.of_nat j)); lia).
  induction k as [|k IH]; intros H x X; [lia|]. cbn in H. pose proof (N k). pose proof (P (m + Z.of_nat k)). destruct (Z.eq_dec x (m + Z.of_nat k)) as [->|]; [lia|]. apply IH; lia.
Qed.
Lemma gs_nonneg g m k : (forall x, 0 <= wt (g x)) -> 0 <= gs g m k.
Proof. intros P. induction k; cbn; [lia|]. specialize (P (m + Z.of_nat k)). lia. Qed.
Lemma gs_ge g m k x : (forall y, 0 <= wt (g y)) -> m <= x < m + Z.of_nat k -> wt (g x) <= gs g m k.
Proof. intros P. induction k as [|k IH]; intros X; [lia|]. cbn. destruct (Z.eq_dec x (m + Z.of_nat k)) as [->|]; [pose proof (gs_nonneg g m k P); lia|]. pose proof (P (m + Z.of_nat k)). assert (wt (g x) <= gs g m k) by (apply IH; lia). lia. Qed.

(* ---- pieces ---- *)
Definition small (tg : tag) (n : Z) : Prop := 0 <= snd tg /\ (snd tg < CLASSES -> n = 1).
Definition okp (N : nat) (p : gp) (n : Z) (tg : tag) : Prop :=
  match p with
  | At (TC h k) => n = k /\ n <= RUNS /\ (h < N)%nat
  | At (CC h c) => n = 1 /\ 0 <= c < CLASSES /\ (h < N)%nat
  | At (DF h) => n <= RUNS /\ (h < N)%nat /\ small tg n
  | At (GA k) => n = k /\ n <= RUNS
  | At (GO k) => n = k /\ n <= RUNS
  | RS h => n <= RUNS /\ (h < N)%nat
  | HP => n = HEAPSPANS
  | HELD => n <= RUNS /\ (fst tg < N)%nat /\ small tg n
  | FL => n <= RUNS
  | TMP => n <= RUNS
  end.
Definition memory := Z -> option hdr.
Definition regions := Z -> option (Z * Z).
Definition headed (me : memory) (m s n : Z) (tg : tag) : Prop :=
  exists hd, me s = Some hd /\ h_n hd = n /\ h_heap hd = fst tg /\ h_cls hd = snd tg /\ (s <> m -> h_kind hd = KSub /\ h_off hd = s - m).
Definition is_rs (p : gp) : bool := match p with RS _ | TMP => true | _ => false end.
Definition reg_ok (me : memory) (g : ghost) (m T al : Z) : Prop :=
  1 <= T /\ 0 < al <= 8192 /\ 1 <= gsum g m T /\
  exists hd, me m = Some hd /\ h_kind hd = (match g m with Some _ => KMaster | None => KDead end) /\ h_total hd = T /\ h_al hd = al /\ h_rem hd = gsum g m T.
Definition in_reg (me : memory) (rg : regions) (s n : Z) (p : gp) (tg : tag) : Prop :=
  exists m T al, rg m = Some (T, al) /\ m <= s /\ s + n <= m + T /\ (is_rs p = false -> headed me m s n tg).
Record PI (N : nat) (me : memory) (rg : regions) (g : ghost) (L : gp -> list Z) : Prop := {
  p_nd : forall p, NoDup (L p);
  p_in : forall p s, In s (L p) <-> exists n tg, g s = Some (p, n, tg);
  p_ok : forall s p n tg, g s = Some (p, n, tg) -> 1 <= n /\ okp N p n tg;
  p_acc : forall s p n tg, g s = Some (p, n, tg) -> forall x, s <= x < s + n -> me x <> None;
  p_at : forall s p n tg, g s = Some (p, n, tg) -> in_reg me rg s n p tg;
  p_rg : forall m T al, rg m = Some (T, al) -> reg_ok me g m T al;
  p_dis : forall s p n tg s' p' n' tg', g s = Some (p, n, tg) -> g s' = Some (p', n', tg') -> s < s' -> s + n <= s';
  p_rdis : forall m T al m' T' al', rg m = Some (T, al) -> rg m' = Some (T', al') -> m < m' -> m + T <= m' }.

Lemma wt_nonneg N me rg g L : PI N me rg g L -> forall x, 0 <= wt (g x).
Proof. intros V x. destruct (g x) as [[[p n] tg]|] eqn:E; cbn; [|lia]. destruct (p_ok _ _ _ _ _ V _ _ _ _ E). lia. Qed.
(* the mapping a piece is in is the only one around any of its spans *)
Lemma reg_unique N me rg g L m T al m' T' al' x : PI N me rg g L -> rg m = Some (T, al) -> rg m' = Some (T', al') -> m <= x < m + T -> m' <= x < m' + T' -> m = m'.
Proof. intros V R R' X X'. destruct (Z.lt_trichotomy m m') as [H|[H|H]]; [pose proof (p_rdis _ _ _ _ _ V _ _ _ _ _ _ R R' H); lia|exact H|pose proof (p_rdis _ _ _ _ _ V _ _ _ _ _ _ R' R H); lia]. Qed.

(* ---- moving a piece ---- *)
Lemma gp_dec : forall a b : gp, {a = b} + {a <> b}.
Proof. assert (D : forall a b : place, {a = b} + {a <> b}) by (decide equality; try apply Z.eq_dec; apply Nat.eq_dec). decide equality; apply Nat.eq_dec. Qed.
Lemma nodup_perm {A} (x : A) l l' : Permutation l (x :: l') -> NoDup l -> NoDup l' /\ ~ In x l'.
Proof. intros P N. apply (Permutation_NoDup P) in N. inversion N; subst. auto. Qed.
Lemma PI_move N me rg g L L' s p q n tg : PI N me rg g L -> g s = Some (p, n, tg) -> p <> q -> is_rs p = is_rs q \/ is_rs q = true -> okp N q n tg ->
  Permutation (L p) (s :: L' p) -> Permutation (L' q) (s :: L q) -> (forall r, r <> p -> r <> q -> L' r = L r) -> PI N me rg (upd g s (Some (q, n, tg))) L'.
Proof.
  intros V G NE HQ OK P1 P2 FR.
  assert (W : forall x, wt (upd g s (Some (q, n, tg)) x) = wt (g x)) by (intros x; unfold upd; destruct (Z.eqb_spec s x) as [<-|]; [rewrite G; reflexivity|reflexivity]).
  assert (DEC : forall r : gp, r = p \/ r = q \/ (r <> p /\ r <> q)) by (intros r; destruct (gp_dec r p); [auto|]; destruct (gp_dec r q); auto).
  assert (U : forall x r n' tg', upd g s (Some (q, n, tg)) x = Some (r, n', tg') -> exists r0, g x = Some (r0, n', tg') /\ (x = s /\ r = q /\ r0 = p \/ x <> s /\ r0 = r)).
  { intros x r n' tg'. unfold upd. destruct (Z.eqb_spec s x) as [<-|]; intros E; [injection E as <- <- <-; exists p; auto|]. exists r. auto. }
  constructor.
  - intros r. destruct (DEC r) as [->|[->|[R1 R2]]].
    + apply (nodup_perm s (L p) (L' p) P1). apply (p_nd _ _ _ _ _ V).
    + apply (Permutation_NoDup (Permutation_sym P2)). constructor; [|apply (p_nd _ _ _ _ _ V)]. intros I. apply (p_in _ _ _ _ _ V) in I as (n' & tg' & I). congruence.
    + rewrite FR by assumption. apply (p_nd _ _ _ _ _ V).
  - intros r x. destruct (DEC r) as [->|[->|[R1 R2]]].
    + destruct (nodup_perm s (L p) (L' p) P1 (p_nd _ _ _ _ _ V p)) as (_ & NI). split.
      * intros I. assert (I2 : In x (L p)) by (apply (Permutation_in x (Permutation_sym P1)); right; exact I). apply (p_in _ _ _ _ _ V) in I2 as (n' & tg' & I2). exists n', tg'. rewrite upd_other; [exact I2|]. intros ->. contradiction.
      * intros (n' & tg' & E). destruct (U _ _ _ _ E) as (r0 & E0 & [(-> & Q & _)|(NX & ->)]); [congruence|]. assert (I2 : In x (L p)) by (apply (p_in _ _ _ _ _ V); eauto). apply (Permutation_in x P1) in I2 as [<-|I2]; [congruence|exact I2].
    + split.
      * intros I. apply (Permutation_in x P2) in I as [<-|I]; [exists n, tg; apply upd_same|]. apply (p_in _ _ _ _ _ V) in I as (n' & tg' & I). exists n', tg'. rewrite upd_other; [exact I|]. intros ->. congruence.
      * intros (n' & tg' & E). apply (Permutation_in x (Permutation_sym P2)). destruct (U _ _ _ _ E) as (r0 & E0 & [(-> & _ & _)|(NX & ->)]); [left; reflexivity|]. right. apply (p_in _ _ _ _ _ V). eauto.
    + rewrite FR by assumption. rewrite (p_in _ _ _ _ _ V). split; intros (n' & tg' & E).
      * exists n', tg'. rewrite upd_other; [exact E|]. intros ->. congruence.
      * destruct (U _ _ _ _ E) as (r0 & E0 & [(-> & Q & _)|(NX & ->)]); [congruence|]. eauto.
  - intros x r n' tg' E. destruct (U _ _ _ _ E) as (r0 & E0 & [(-> & -> & ->)|(NX & ->)]); [|apply (p_ok _ _ _ _ _ V _ _ _ _ E0)].
    rewrite G in E0. injection E0 as <- <-. split; [|exact OK]. apply (p_ok _ _ _ _ _ V _ _ _ _ G).
  - intros x r n' tg' E. destruct (U _ _ _ _ E) as (r0 & E0 & _). apply (p_acc _ _ _ _ _ V _ _ _ _ E0).
  - intros x r n' tg' E. destruct (U _ _ _ _ E) as (r0 & E0 & C). destruct (p_at _ _ _ _ _ V _ _ _ _ E0) as (m & T & al & R & A & B & H). exists m, T, al. split; [exact R|]. split; [exact A|]. split; [exact B|].
    intros Q. apply H. destruct C as [(-> & -> & ->)|(_ & ->)]; [|exact Q]. destruct HQ as [HQ|HQ]; congruence.
  - intros m T al R. destruct (p_rg _ _ _ _ _ V _ _ _ R) as (A & B & C & hd & D). assert (SU : gsum (upd g s (Some (q, n, tg))) m T = gsum g m T) by (apply gsum_ext; intros; apply W).
    split; [exact A|]. split; [exact B|]. rewrite SU. split; [exact C|]. exists hd. destruct D as (D1 & D2 & D3). split; [exact D1|]. split; [|exact D3]. rewrite D2. unfold upd. destruct (Z.eqb_spec s m) as [<-|]; [now rewrite G|reflexivity].
  - intros x r n' tg' x' r' n2 tg2 E E' LT. destruct (U _ _ _ _ E) as (r0 & E0 & _). destruct (U _ _ _ _ E') as (r1 & E1 & _). apply (p_dis _ _ _ _ _ V _ _ _ _ _ _ _ _ E0 E1 LT).
  - apply (p_rdis _ _ _ _ _ V).
Qed.

(* ---- a piece goes ---- *)
Lemma upd_none g s x r : upd g s None x = Some r -> x <> s /\ g x = Some r.
Proof. unfold upd. destruct (Z.eqb_spec s x) as [<-|N]; [discriminate|]. intros E. split; [congruence|exact E]. Qed.
Lemma in_gone N me rg g L L' s p n tg : PI N me rg g L -> g s = Some (p, n, tg) -> Permutation (L p) (s :: L' p) -> (forall r, r <> p -> L' r = L r) ->
  (forall r, NoDup (L' r)) /\ forall r x, In x (L' r) <-> exists n' tg', upd g s None x = Some (r, n', tg').
Proof.
  intros V G P FR. destruct (nodup_perm s (L p) (L' p) P (p_nd _ _ _ _ _ V p)) as (ND & NI). split.
  - intros r. destruct (gp_dec r p) as [->|NE]; [exact ND|]. rewrite FR by exact NE. apply (p_nd _ _ _ _ _ V).
  - intros r x. destruct (gp_dec r p) as [->|NE].
    + split.
      * intros I. assert (I2 : In x (L p)) by (apply (Permutation_in x (Permutation_sym P)); right; exact I). apply (p_in _ _ _ _ _ V) in I2 as (n' & tg' & I2). exists n', tg'. rewrite upd_other; [exact I2|]. intros ->. contradiction.
      * intros (n' & tg' & E). apply upd_none in E as (NX & E). assert (I2 : In x (L p)) by (apply (p_in _ _ _ _ _ V); eauto). apply (Permutation_in x P) in I2 as [<-|I2]; [congruence|exact I2].
    + rewrite FR by exact NE. rewrite (p_in _ _ _ _ _ V). split; intros (n' & tg' & E).
      * exists n', tg'. rewrite upd_other; [exact E|]. intros ->. congruence.
      * apply upd_none in E as (NX & E). eauto.
Qed.
Lemma PI_drop N me me' rg g L L' s p n tg m T al hd hd' : PI N me rg g L -> g s = Some (p, n, tg) -> rg m = Some (T, al) -> m <= s -> s + n <= m + T ->
  Permutation (L p) (s :: L' p) -> (forall r, r <> p -> L' r = L r) ->
  (forall x, x <> m -> x < s \/ s + n <= x -> me' x = me x) -> me m = Some hd -> me' m = Some hd' ->
  h_kind hd' = (match upd g s None m with Some _ => KMaster | None => KDead end) -> h_total hd' = T -> h_al hd' = al -> h_rem hd' = gsum (upd g s None) m T ->
  h_n hd' = h_n hd -> h_heap hd' = h_heap hd -> h_cls hd' = h_cls hd -> 1 <= gsum (upd g s None) m T -> PI N me' rg (upd g s None) L'.
Proof.
  intros V G R A B P FR ME H1 H2 K1 K2 K3 K4 K5 K6 K7 K8. destruct (in_gone _ _ _ _ _ _ _ _ _ _ V G P FR) as (X1 & X2).
  assert (N1 : 1 <= n) by (apply (p_ok _ _ _ _ _ V _ _ _ _ G)).
  assert (SEP : forall y q k t, y <> s -> g y = Some (q, k, t) -> y + k <= s \/ s + n <= y).
  { intros y q k t NE E. destruct (Z.lt_trichotomy y s) as [H|[H|H]]; [left; apply (p_dis _ _ _ _ _ V _ _ _ _ _ _ _ _ E G H)|congruence|right; apply (p_dis _ _ _ _ _ V _ _ _ _ _ _ _ _ G E H)]. }
  constructor.
  - exact X1.
  - exact X2.
  - intros y q k t E. apply upd_none in E as (_ & E). apply (p_ok _ _ _ _ _ V _ _ _ _ E).
  - intros y q k t E x X. apply upd_none in E as (NE & E). destruct (Z.eq_dec x m) as [->|NX]; [congruence|]. rewrite ME; [|exact NX|destruct (SEP _ _ _ _ NE E); lia]. apply (p_acc _ _ _ _ _ V _ _ _ _ E x X).
  - intros y q k t E. apply upd_none in E as (NE & E). destruct (p_at _ _ _ _ _ V _ _ _ _ E) as (m1 & T1 & al1 & R1 & A1 & B1 & C1). exists m1, T1, al1. split; [exact R1|]. split; [exact A1|]. split; [exact B1|].
    intros Q. destruct (C1 Q) as (h & D1 & D2 & D3 & D4 & D5). assert (1 <= k) by (apply (p_ok _ _ _ _ _ V _ _ _ _ E)). destruct (Z.eq_dec y m) as [->|NY].
    + rewrite H1 in D1. injection D1 as <-. exists hd'. split; [exact H2|]. split; [congruence|]. split; [congruence|]. split; [congruence|]. intros NM. exfalso. apply NM. apply (reg_unique _ _ _ _ _ m T al m1 T1 al1 m V R R1); [|lia]. destruct (p_rg _ _ _ _ _ V _ _ _ R). lia.
    + exists h. split; [|auto]. rewrite ME; [exact D1|exact NY|]. destruct (SEP _ _ _ _ NE E); lia.
  - intros m1 T1 al1 R1. destruct (p_rg _ _ _ _ _ V _ _ _ R1) as (A1 & B1 & C1 & h & D1 & D2 & D3 & D4 & D5). destruct (Z.eq_dec m1 m) as [->|NM].
    + rewrite R in R1. injection R1 as <- <-. split; [exact A1|]. split; [exact B1|]. split; [exact K8|]. exists hd'. auto.
    + assert (OUT : s < m1 \/ m1 + T1 <= s). { destruct (Z.lt_ge_cases s m1); [auto|]. destruct (Z.lt_ge_cases s (m1 + T1)); [|auto]. exfalso. apply NM. apply (reg_unique _ _ _ _ _ m1 T1 al1 m T al s V R1 R); lia. }
      assert (NS : m1 <> s) by lia. split; [exact A1|]. split; [exact B1|]. rewrite gsum_out by exact OUT. split; [exact C1|]. exists h. rewrite upd_other by exact NS. split; [|auto]. rewrite ME; [exact D1|exact NM|]. destruct (Z.lt_ge_cases m1 s); [auto|]. destruct (Z.lt_ge_cases m1 (s + n)); [|auto]. exfalso. apply NM. apply (reg_unique _ _ _ _ _ m1 T1 al1 m T al m1 V R1 R); lia.
  - intros y q k t y' q' k' t' E E'. apply upd_none in E as (_ & E). apply upd_none in E' as (_ & E'). apply (p_dis _ _ _ _ _ V _ _ _ _ _ _ _ _ E E').
  - apply (p_rdis _ _ _ _ _ V).
Qed.
Definition rdel (rg : regions) (m : Z) : regions := fun x => if m =? x then None else rg x.
Lemma PI_last N me me' rg g L L' s p n tg m T al : PI N me rg g L -> g s = Some (p, n, tg) -> rg m = Some (T, al) -> m <= s -> s + n <= m + T ->
  Permutation (L p) (s :: L' p) -> (forall r, r <> p -> L' r = L r) -> (forall x, x < m \/ m + T <= x -> me' x = me x) -> gsum (upd g s None) m T <= 0 -> PI N me' (rdel rg m) (upd g s None) L' /\ forall x, m <= x < m + T -> upd g s None x = None.
Proof.
  intros V G R A B P FR ME Z0. destruct (in_gone _ _ _ _ _ _ _ _ _ _ V G P FR) as (X1 & X2).
  assert (W0 : forall x, 0 <= wt (upd g s None x)) by (intros x; unfold upd; destruct (s =? x); cbn; [lia|]; apply (wt_nonneg _ _ _ _ _ V)).
  assert (EMPTY : forall x, m <= x < m + T -> upd g s None x = None).
  { intros x X. pose proof (gs_zero _ m (Z.to_nat T) W0 Z0 x ltac:(lia)) as W. destruct (upd g s None x) as [[[q k] t]|] eqn:E; [|reflexivity]. apply upd_none in E as (_ & E). cbn in W. destruct (p_ok _ _ _ _ _ V _ _ _ _ E). lia. }
  split; [|exact EMPTY].
  assert (OUT : forall y q k t, upd g s None y = Some (q, k, t) -> exists m1 T1 al1, rg m1 = Some (T1, al1) /\ m1 <> m /\ m1 <= y /\ y + k <= m1 + T1 /\ (is_rs q = false -> headed me m1 y k t) /\ 1 <= k).
  { intros y q k t E. pose proof E as E0. apply upd_none in E as (NE & E). destruct (p_at _ _ _ _ _ V _ _ _ _ E) as (m1 & T1 & al1 & R1 & A1 & B1 & C1). assert (1 <= k) by (apply (p_ok _ _ _ _ _ V _ _ _ _ E)). exists m1, T1, al1. split; [exact R1|]. split; [|auto].
    intros ->. rewrite R in R1. injection R1 as <- <-. rewrite EMPTY in E0; [discriminate|lia]. }
  assert (SEP : forall m1 T1 al1 x, rg m1 = Some (T1, al1) -> m1 <> m -> m1 <= x < m1 + T1 -> x < m \/ m + T <= x).
  { intros m1 T1 al1 x R1 NM X. destruct (Z.lt_ge_cases x m); [auto|]. destruct (Z.lt_ge_cases x (m + T)); [|auto]. exfalso. apply NM. apply (reg_unique _ _ _ _ _ m1 T1 al1 m T al x V R1 R); lia. }
  assert (RD : forall m1 v, rdel rg m m1 = Some v -> m1 <> m /\ rg m1 = Some v) by (intros m1 v; unfold rdel; destruct (Z.eqb_spec m m1); [discriminate|]; intros; split; congruence).
  assert (RK : forall m1, m1 <> m -> rdel rg m m1 = rg m1) by (intros m1 H; unfold rdel; destruct (Z.eqb_spec m m1); congruence).
  constructor.
  - exact X1.
  - exact X2.
  - intros y q k t E. apply upd_none in E as (_ & E). apply (p_ok _ _ _ _ _ V _ _ _ _ E).
  - intros y q k t E x X. destruct (OUT _ _ _ _ E) as (m1 & T1 & al1 & R1 & NM & A1 & B1 & _). apply upd_none in E as (_ & E). rewrite ME; [apply (p_acc _ _ _ _ _ V _ _ _ _ E x X)|]. apply (SEP m1 T1 al1); auto; lia.
  - intros y q k t E. destruct (OUT _ _ _ _ E) as (m1 & T1 & al1 & R1 & NM & A1 & B1 & C1 & K). exists m1, T1, al1. rewrite RK by exact NM. split; [exact R1|]. split; [exact A1|]. split; [exact B1|]. intros Q. destruct (C1 Q) as (h & D1 & D). exists h. split; [|exact D]. rewrite ME; [exact D1|]. apply (SEP m1 T1 al1); auto; lia.
  - intros m1 T1 al1 R1. apply RD in R1 as (NM & R1). destruct (p_rg _ _ _ _ _ V _ _ _ R1) as (A1 & B1 & C1 & h & D1 & D2 & D3).
    assert (NS : s < m1 \/ m1 + T1 <= s). { destruct (Z.lt_ge_cases s m1); [auto|]. destruct (Z.lt_ge_cases s (m1 + T1)); [|auto]. exfalso. apply NM. apply (reg_unique _ _ _ _ _ m1 T1 al1 m T al s V R1 R); try lia. destruct (p_ok _ _ _ _ _ V _ _ _ _ G). lia. }
    split; [exact A1|]. split; [exact B1|]. rewrite gsum_out by exact NS. split; [exact C1|]. exists h. rewrite upd_other by lia. split; [|auto]. rewrite ME; [exact D1|]. apply (SEP m1 T1 al1); auto; lia.
  - intros y q k t y' q' k' t' E E'. apply upd_none in E as (_ & E). apply upd_none in E' as (_ & E'). apply (p_dis _ _ _ _ _ V _ _ _ _ _ _ _ _ E E').
  - intros m1 T1 al1 m2 T2 al2 R1 R2. apply RD in R1 as (_ & R1). apply RD in R2 as (_ & R2). apply (p_rdis _ _ _ _ _ V _ _ _ _ _ _ R1 R2).
Qed.

(* ---- a piece is written on ---- *)
Lemma PI_retag N me g rg L s p n tg hd hd' : PI N me rg g L -> g s = Some (p, n, tg) -> is_rs p = false -> me s = Some hd ->
  h_kind hd' = h_kind hd -> h_n hd' = h_n hd -> h_off hd' = h_off hd -> h_total hd' = h_total hd -> h_rem hd' = h_rem hd -> h_al hd' = h_al hd -> okp N p n (h_heap hd', h_cls hd') ->
  PI N (fun x => if s =? x then Some hd' else me x) rg (upd g s (Some (p, n, (h_heap hd', h_cls hd')))) L.
Proof.
  intros V G Q M K1 K2 K3 K4 K5 K6 OK. set (tg' := (h_heap hd', h_cls hd')). set (me' := fun x => if s =? x then Some hd' else me x).
  assert (W : forall x, wt (upd g s (Some (p, n, tg')) x) = wt (g x)) by (intros x; unfold upd; destruct (Z.eqb_spec s x) as [<-|]; [rewrite G; reflexivity|reflexivity]).
  assert (MS : me' s = Some hd') by (unfold me'; now rewrite Z.eqb_refl).
  assert (MO : forall x, x <> s -> me' x = me x) by (intros x X; unfold me'; destruct (Z.eqb_spec s x); congruence).
  assert (U : forall x r n' t', upd g s (Some (p, n, tg')) x = Some (r, n', t') -> x = s /\ r = p /\ n' = n /\ t' = tg' \/ x <> s /\ g x = Some (r, n', t')).
  { intros x r n' t'. unfold upd. destruct (Z.eqb_spec s x) as [<-|]; intros E; [left; injection E as <- <- <-; auto|right; split; congruence]. }
  constructor.
  - apply (p_nd _ _ _ _ _ V).
  - intros r x. rewrite (p_in _ _ _ _ _ V). split; intros (n' & t' & E).
    + destruct (Z.eq_dec x s) as [->|]; [rewrite G in E; injection E as <- <- <-; exists n, tg'; apply upd_same|]. exists n', t'. rewrite upd_other; assumption.
    + destruct (U _ _ _ _ E) as [(-> & -> & -> & ->)|(_ & E')]; eauto.
  - intros x r n' t' E. destruct (U _ _ _ _ E) as [(-> & -> & -> & ->)|(_ & E')]; [split; [apply (p_ok _ _ _ _ _ V _ _ _ _ G)|exact OK]|apply (p_ok _ _ _ _ _ V _ _ _ _ E')].
  - intros x r n' t' E y Y. destruct (Z.eq_dec y s) as [->|NY]; [rewrite MS; discriminate|]. rewrite MO by exact NY. destruct (U _ _ _ _ E) as [(-> & -> & -> & ->)|(_ & E')]; [apply (p_acc _ _ _ _ _ V _ _ _ _ G y Y)|apply (p_acc _ _ _ _ _ V _ _ _ _ E' y Y)].
  - intros x r n' t' E. destruct (U _ _ _ _ E) as [(-> & -> & -> & ->)|(NX & E')].
    + destruct (p_at _ _ _ _ _ V _ _ _ _ G) as (m & T & al & R & A & B & C). exists m, T, al. split; [exact R|]. split; [exact A|]. split; [exact B|]. intros _. destruct (C Q) as (h & D1 & D2 & D3 & D4 & D5). rewrite M in D1. injection D1 as <-. exists hd'. split; [exact MS|]. split; [congruence|]. split; [reflexivity|]. split; [reflexivity|]. intros X. rewrite K1, K3. auto.
    + destruct (p_at _ _ _ _ _ V _ _ _ _ E') as (m & T & al & R & A & B & C). exists m, T, al. split; [exact R|]. split; [exact A|]. split; [exact B|]. intros Q'. destruct (C Q') as (h & D1 & D). exists h. rewrite MO by exact NX. auto.
  - intros m T al R. destruct (p_rg _ _ _ _ _ V _ _ _ R) as (A & B & C & h & D1 & D2 & D3 & D4 & D5). split; [exact A|]. split; [exact B|]. rewrite (gsum_ext _ g) by (intros; apply W). split; [exact C|]. destruct (Z.eq_dec m s) as [->|NM].
    + rewrite M in D1. injection D1 as <-. exists hd'. rewrite upd_same. split; [exact MS|]. rewrite K1, K4, K5, K6, D2, G. auto.
    + exists h. rewrite upd_other, MO by exact NM. auto.
  - intros x r n' t' x' r' n2 t2 E E' LT. assert (F : forall y q k t, upd g s (Some (p, n, tg')) y = Some (q, k, t) -> exists t0, g y = Some (q, k, t0)) by (intros y q k t F; destruct (U _ _ _ _ F) as [(-> & -> & -> & ->)|(_ & F')]; eauto).
    destruct (F _ _ _ _ E) as (t0 & E0). destruct (F _ _ _ _ E') as (t1 & E1). apply (p_dis _ _ _ _ _ V _ _ _ _ _ _ _ _ E0 E1 LT).
  - apply (p_rdis _ _ _ _ _ V).
Qed.

(* ---- the first spans of a reserve are cut off ---- *)
Definition cut_hdr (m s n : Z) (h : hdr) : hdr :=
  if s =? m then mkhdr (h_kind h) n (h_off h) (h_total h) (h_rem h) (h_al h) (h_heap h) (h_cls h) else mkhdr KSub n (s - m) (h_total h) (h_rem h) 0 (h_heap h) (h_cls h).
Definition cut_g (g : ghost) (h : nat) (s k n : Z) (tg tg' : tag) : ghost := upd (if n <? k then upd g (s + n) (Some (RS h, k - n, tg)) else g) s (Some (FL, n, tg')).
Lemma PI_cut N me rg g L L' h s k n tg m T al hd : PI N me rg g L -> g s = Some (RS h, k, tg) -> rg m = Some (T, al) -> m <= s -> s + k <= m + T -> 1 <= n <= k -> me s = Some hd ->
  L (RS h) = [s] -> L' (RS h) = (if n <? k then [s + n] else []) -> L' FL = s :: L FL -> (forall r, r <> RS h -> r <> FL -> L' r = L r) ->
  PI N (fun x => if s =? x then Some (cut_hdr m s n hd) else me x) rg (cut_g g h s k n tg (h_heap hd, h_cls hd)) L'.
Proof.
  intros V G R A B NK M L1 L2 L3 FR. set (hd' := cut_hdr m s n hd). set (me' := fun x => if s =? x then Some hd' else me x). set (tg' := (h_heap hd, h_cls hd)). set (g' := cut_g g h s k n tg tg').
  assert (K63 : k <= RUNS /\ (h < N)%nat) by (apply (p_ok _ _ _ _ _ V _ _ _ _ G)).
  assert (MS : me' s = Some hd') by (unfold me'; now rewrite Z.eqb_refl).
  assert (MO : forall x, x <> s -> me' x = me x) by (intros x X; unfold me'; destruct (Z.eqb_spec s x); congruence).
  assert (GN : forall x, s < x < s + k -> g x = None).
  { intros x X. destruct (g x) as [[[q j] t]|] eqn:E; [|reflexivity]. pose proof (p_dis _ _ _ _ _ V _ _ _ _ _ _ _ _ G E ltac:(lia)). lia. }
  assert (GS : g' s = Some (FL, n, tg')) by apply upd_same.
  assert (GR : n < k -> g' (s + n) = Some (RS h, k - n, tg)) by (intros H; unfold g', cut_g; rewrite upd_other by lia; destruct (Z.ltb_spec n k); [|lia]; apply upd_same).
  assert (GO : forall x, x <> s -> (n < k -> x <> s + n) -> g' x = g x) by (intros x X Y; unfold g', cut_g; rewrite upd_other by lia; destruct (Z.ltb_spec n k); [rewrite upd_other by auto; reflexivity|reflexivity]).
  assert (U : forall x r j t, g' x = Some (r, j, t) -> x = s /\ r = FL /\ j = n /\ t = tg' \/ n < k /\ x = s + n /\ r = RS h /\ j = k - n /\ t = tg \/ x <> s /\ (x < s \/ s + k <= x) /\ g x = Some (r, j, t)).
  { intros x r j t E. destruct (Z.eq_dec x s) as [->|NX]; [left; rewrite GS in E; injection E as <- <- <-; auto|]. right. destruct (Z.ltb_spec n k) as [LT|GE].
    - destruct (Z.eq_dec x (s + n)) as [->|NX2]; [left; rewrite GR in E by exact LT; injection E as <- <- <-; auto|]. right. rewrite GO in E by auto. split; [exact NX|]. split; [|exact E]. destruct (Z.lt_ge_cases x s); [auto|]. destruct (Z.lt_ge_cases x (s + k)); [|auto]. rewrite GN in E by lia. discriminate.
    - right. rewrite GO in E by (auto; lia). split; [exact NX|]. split; [|exact E]. destruct (Z.lt_ge_cases x s); [auto|]. destruct (Z.lt_ge_cases x (s + k)); [|auto]. rewrite GN in E by lia. discriminate. }
  assert (RU : forall r x, In x (L r) <-> exists j t, g x = Some (r, j, t)) by apply (p_in _ _ _ _ _ V).
  assert (SUM : forall m1 T1 al1, rg m1 = Some (T1, al1) -> gsum g' m1 T1 = gsum g m1 T1).
  { intros m1 T1 al1 R1. destruct (Z.eq_dec m1 m) as [->|NM].
    - rewrite R in R1. injection R1 as <- <-. unfold g', cut_g. rewrite gsum_upd by lia. destruct (Z.ltb_spec n k) as [LT|GE].
      + rewrite gsum_upd by lia. rewrite (upd_other g (s + n)) by lia. rewrite G, (GN (s + n)) by lia. cbn. lia.
      + rewrite G. cbn. lia.
    - apply gsum_ext. intros x X. assert (OUT : ~ (m <= x < m + T)) by (intros X2; apply NM; apply (reg_unique _ _ _ _ _ m1 T1 al1 m T al x V R1 R); lia). rewrite GO; [reflexivity|lia|lia]. }
  constructor.
  - intros r. destruct (gp_dec r (RS h)) as [->|N1]; [rewrite L2; destruct (n <? k); repeat constructor; auto|]. destruct (gp_dec r FL) as [->|N2].
    + rewrite L3. constructor; [|apply (p_nd _ _ _ _ _ V)]. intros I. apply RU in I as (j & t & I). congruence.
    + rewrite FR by assumption. apply (p_nd _ _ _ _ _ V).
  - intros r x. split.
    + intros I. destruct (gp_dec r (RS h)) as [->|N1].
      * rewrite L2 in I. destruct (Z.ltb_spec n k); [destruct I as [<-|[]]; eauto|destruct I].
      * destruct (gp_dec r FL) as [->|N2].
        -- rewrite L3 in I. destruct I as [<-|I]; [eauto|]. apply RU in I as (j & t & I). exists j, t. rewrite GO; [exact I|congruence|]. intros LT ->. rewrite GN in I by lia. discriminate.
        -- rewrite FR in I by assumption. apply RU in I as (j & t & I). exists j, t. rewrite GO; [exact I|congruence|]. intros LT ->. rewrite GN in I by lia. discriminate.
    + intros (j & t & E). destruct (U _ _ _ _ E) as [(-> & -> & _)|[(LT & -> & -> & _)|(NX & _ & E')]].
      * rewrite L3. left. reflexivity.
      * rewrite L2. destruct (Z.ltb_spec n k); [left; reflexivity|lia].
      * assert (I : In x (L r)) by (apply RU; eauto). destruct (gp_dec r (RS h)) as [->|N1]; [rewrite L1 in I; destruct I as [->|[]]; congruence|]. destruct (gp_dec r FL) as [->|N2]; [rewrite L3; right; exact I|]. now rewrite FR.
  - intros x r j t E. destruct (U _ _ _ _ E) as [(-> & -> & -> & ->)|[(LT & -> & -> & -> & ->)|(NX & _ & E')]]; [split; [lia|unfold okp; lia]|split; [lia|unfold okp; lia]|apply (p_ok _ _ _ _ _ V _ _ _ _ E')].
  - intros x r j t E y Y. destruct (Z.eq_dec y s) as [->|NY]; [rewrite MS; discriminate|]. rewrite MO by exact NY. destruct (U _ _ _ _ E) as [(-> & -> & -> & ->)|[(LT & -> & -> & -> & ->)|(NX & _ & E')]]; [apply (p_acc _ _ _ _ _ V _ _ _ _ G); lia|apply (p_acc _ _ _ _ _ V _ _ _ _ G); lia|apply (p_acc _ _ _ _ _ V _ _ _ _ E' y Y)].
  - intros x r j t E. destruct (U _ _ _ _ E) as [(-> & -> & -> & ->)|[(LT & -> & -> & -> & ->)|(NX & _ & E')]].
    + exists m, T, al. split; [exact R|]. split; [exact A|]. split; [lia|]. intros _. exists hd'. split; [exact MS|]. unfold hd', cut_hdr. destruct (Z.eqb_spec s m); cbn; repeat split; auto; contradiction.
    + exists m, T, al. split; [exact R|]. split; [lia|]. split; [lia|]. discriminate.
    + destruct (p_at _ _ _ _ _ V _ _ _ _ E') as (m1 & T1 & al1 & R1 & A1 & B1 & C1). exists m1, T1, al1. split; [exact R1|]. split; [exact A1|]. split; [exact B1|]. intros Q. destruct (C1 Q) as (h1 & D1 & D). exists h1. rewrite MO by exact NX. auto.
  - intros m1 T1 al1 R1. destruct (p_rg _ _ _ _ _ V _ _ _ R1) as (A1 & B1 & C1 & h1 & D1 & D2 & D3 & D4 & D5). split; [exact A1|]. split; [exact B1|]. rewrite (SUM _ _ _ R1). split; [exact C1|]. destruct (Z.eq_dec m1 s) as [->|NM].
    + assert (Q : s = m) by (apply (reg_unique _ _ _ _ _ s T1 al1 m T al s V R1 R); lia). subst m. exists hd'. split; [exact MS|]. rewrite M in D1. injection D1 as <-. unfold hd', cut_hdr. rewrite Z.eqb_refl. cbn. rewrite GS. rewrite G in D2. auto.
    + exists h1. rewrite MO by exact NM. split; [exact D1|]. split; [|auto]. rewrite D2. rewrite GO; [reflexivity|exact NM|]. intros LT ->. apply NM. assert (Q : s + n = m) by (apply (reg_unique _ _ _ _ _ (s + n) T1 al1 m T al (s + n) V R1 R); lia). lia.
  - intros x r j t x' r' j' t' E E' LT. destruct (U _ _ _ _ E) as [(-> & -> & -> & ->)|[(L0 & -> & -> & -> & ->)|(NX & O1 & E1)]]; destruct (U _ _ _ _ E') as [(-> & -> & -> & ->)|[(L0' & -> & -> & -> & ->)|(NX' & O2 & E2)]]; try lia.
    + pose proof (p_dis _ _ _ _ _ V _ _ _ _ _ _ _ _ E1 G LT). lia.
    + destruct O1; [|lia]. pose proof (p_dis _ _ _ _ _ V _ _ _ _ _ _ _ _ E1 G ltac:(lia)). lia.
    + apply (p_dis _ _ _ _ _ V _ _ _ _ _ _ _ _ E1 E2 LT).
  - apply (p_rdis _ _ _ _ _ V).
Qed.

(* ---- a new mapping ---- *)
Definition radd (rg : regions) (m T al : Z) : regions := fun x => if m =? x then Some (T, al) else rg x.
Definition map_g (g : ghost) (m T n : Z) (p : gp) (tg : tag) : ghost := upd (if n <? T then upd g (m + n) (Some (TMP, T - n, tg)) else g) m (Some (p, n, tg)).
Lemma PI_map N me me' rg g L L' m T al n p hd : PI N me rg g L -> 1 <= n <= T -> is_rs p = false -> okp N p n (h_heap hd, h_cls hd) -> (n < T -> T - n <= RUNS) -> 0 < al <= 8192 ->
  (forall m1 T1 al1, rg m1 = Some (T1, al1) -> m + T <= m1 \/ m1 + T1 <= m) ->
  (forall x, x < m \/ m + T <= x -> me' x = me x) -> (forall x, m <= x < m + T -> me' x <> None) -> me' m = Some hd ->
  h_kind hd = KMaster -> h_n hd = n -> h_total hd = T -> h_rem hd = T -> h_al hd = al ->
  L' p = m :: L p -> L TMP = [] -> L' TMP = (if n <? T then [m + n] else []) -> (forall r, r <> p -> r <> TMP -> L' r = L r) ->
  PI N me' (radd rg m T al) (map_g g m T n p (h_heap hd, h_cls hd)) L'.
Proof.
  intros V NT Q OK TL HA DJ ME MN MM K1 K2 K3 K4 K5 L1 L2 L3 FR. set (tg := (h_heap hd, h_cls hd)). set (g' := map_g g m T n p tg).
  assert (GN : forall x, m <= x < m + T -> g x = None).
  { intros x X. destruct (g x) as [[[q j] t]|] eqn:E; [|reflexivity]. destruct (p_at _ _ _ _ _ V _ _ _ _ E) as (m1 & T1 & al1 & R1 & A1 & B1 & _). pose proof (p_ok _ _ _ _ _ V _ _ _ _ E). destruct (DJ _ _ _ R1); lia. }
  assert (GS : g' m = Some (p, n, tg)) by apply upd_same.
  assert (GR : n < T -> g' (m + n) = Some (TMP, T - n, tg)) by (intros H; unfold g', map_g; rewrite upd_other by lia; destruct (Z.ltb_spec n T); [|lia]; apply upd_same).
  assert (GO : forall x, x < m \/ m + T <= x -> g' x = g x) by (intros x X; unfold g', map_g; rewrite upd_other by lia; destruct (Z.ltb_spec n T); [rewrite upd_other by lia; reflexivity|reflexivity]).
  assert (U : forall x r j t, g' x = Some (r, j, t) -> x = m /\ r = p /\ j = n /\ t = tg \/ n < T /\ x = m + n /\ r = TMP /\ j = T - n /\ t = tg \/ (x < m \/ m + T <= x) /\ g x = Some (r, j, t)).
  { intros x r j t E. destruct (Z.eq_dec x m) as [->|NX]; [left; rewrite GS in E; injection E as <- <- <-; auto|]. right. destruct (Z.lt_ge_cases x m); [right; rewrite GO in E by auto; auto|]. destruct (Z.lt_ge_cases x (m + T)) as [LT|]; [|right; rewrite GO in E by auto; auto]. left.
    assert (G0 : g x = None) by (apply GN; lia). unfold g', map_g in E. rewrite upd_other in E by exact NX. destruct (Z.ltb_spec n T) as [LN|]; [|congruence]. destruct (Z.eq_dec x (m + n)) as [->|NX2]; [|rewrite upd_other in E by exact NX2; congruence]. rewrite upd_same in E. injection E as <- <- <-. auto. }
  assert (RU : forall r x, In x (L r) <-> exists j t, g x = Some (r, j, t)) by apply (p_in _ _ _ _ _ V).
  assert (NTMP : p <> TMP) by (intros ->; discriminate).
  assert (FAR : forall x r j t, g x = Some (r, j, t) -> x + j <= m \/ m + T <= x).
  { intros x r j t E. destruct (p_at _ _ _ _ _ V _ _ _ _ E) as (m1 & T1 & al1 & R1 & A1 & B1 & _). pose proof (p_ok _ _ _ _ _ V _ _ _ _ E). destruct (DJ _ _ _ R1); lia. }
  assert (RM : rg m = None). { destruct (rg m) as [[T1 al1]|] eqn:E; [|reflexivity]. destruct (p_rg _ _ _ _ _ V _ _ _ E). destruct (DJ _ _ _ E); lia. }
  assert (RA : forall m1 v, radd rg m T al m1 = Some v -> m1 = m /\ v = (T, al) \/ m1 <> m /\ rg m1 = Some v) by (intros m1 v; unfold radd; destruct (Z.eqb_spec m m1); intros; [left; split; congruence|right; split; congruence]).
  assert (RO : forall m1 v, rg m1 = Some v -> radd rg m T al m1 = Some v) by (intros m1 v E; unfold radd; destruct (Z.eqb_spec m m1); congruence).
  constructor.
  - intros r. destruct (gp_dec r p) as [->|N1].
    + rewrite L1. constructor; [|apply (p_nd _ _ _ _ _ V)]. intros I. apply RU in I as (j & t & I). rewrite GN in I by lia. discriminate.
    + destruct (gp_dec r TMP) as [->|N2]; [rewrite L3; destruct (n <? T); repeat constructor; auto|]. rewrite FR by assumption. apply (p_nd _ _ _ _ _ V).
  - intros r x. split.
    + intros I. assert (OLD : In x (L r) -> exists j t, g' x = Some (r, j, t)) by (intros I0; apply RU in I0 as (j & t & I0); exists j, t; rewrite GO; [exact I0|]; destruct (FAR _ _ _ _ I0); pose proof (p_ok _ _ _ _ _ V _ _ _ _ I0); lia).
      destruct (gp_dec r p) as [->|N1]; [rewrite L1 in I; destruct I as [<-|I]; eauto|]. destruct (gp_dec r TMP) as [->|N2]; [|rewrite FR in I by assumption; auto]. rewrite L3 in I. destruct (Z.ltb_spec n T); [destruct I as [<-|[]]; eauto|destruct I].
    + intros (j & t & E). destruct (U _ _ _ _ E) as [(-> & -> & _)|[(LT & -> & -> & _)|(_ & E')]].
      * rewrite L1. left. reflexivity.
      * rewrite L3. destruct (Z.ltb_spec n T); [left; reflexivity|lia].
      * assert (I : In x (L r)) by (apply RU; eauto). destruct (gp_dec r p) as [->|N1]; [rewrite L1; right; exact I|]. destruct (gp_dec r TMP) as [->|N2]; [rewrite L2 in I; destruct I|]. now rewrite FR.
  - intros x r j t E. destruct (U _ _ _ _ E) as [(-> & -> & -> & ->)|[(LT & -> & -> & -> & ->)|(_ & E')]]; [split; [lia|exact OK]|split; [lia|cbn; auto]|apply (p_ok _ _ _ _ _ V _ _ _ _ E')].
  - intros x r j t E y Y. destruct (U _ _ _ _ E) as [(-> & -> & -> & ->)|[(LT & -> & -> & -> & ->)|(O1 & E')]]; [apply MN; lia|apply MN; lia|]. rewrite ME; [apply (p_acc _ _ _ _ _ V _ _ _ _ E' y Y)|]. destruct (FAR _ _ _ _ E'); lia.
  - intros x r j t E. destruct (U _ _ _ _ E) as [(-> & -> & -> & ->)|[(LT & -> & -> & -> & ->)|(O1 & E')]].
    + exists m, T, al. split; [unfold radd; now rewrite Z.eqb_refl|]. split; [lia|]. split; [lia|]. intros _. exists hd. split; [exact MM|]. split; [exact K2|]. split; [reflexivity|]. split; [reflexivity|]. intros X. now elim X.
    + exists m, T, al. split; [unfold radd; now rewrite Z.eqb_refl|]. split; [lia|]. split; [lia|]. discriminate.
    + destruct (p_at _ _ _ _ _ V _ _ _ _ E') as (m1 & T1 & al1 & R1 & A1 & B1 & C1). exists m1, T1, al1. split; [apply RO, R1|]. split; [exact A1|]. split; [exact B1|]. intros Q'. destruct (C1 Q') as (h1 & D1 & D). exists h1. rewrite ME by exact O1. auto.
  - intros m1 T1 al1 R1. destruct (RA _ _ R1) as [(-> & E)|(NM & R0)].
    + injection E as -> ->. assert (SUM : gsum g' m T = T).
      { unfold g', map_g. assert (Z0 : gsum g m T = 0) by (unfold gsum; rewrite (gs_ext g (fun _ => None)); [induction (Z.to_nat T) as [|j IH]; cbn; [reflexivity|]; rewrite IH; reflexivity|]; intros x X; rewrite GN by lia; reflexivity).
        rewrite gsum_upd by lia. destruct (Z.ltb_spec n T).
        - rewrite gsum_upd by lia. rewrite (upd_other g (m + n)) by lia. rewrite (GN m), (GN (m + n)) by lia. cbn. lia.
        - rewrite (GN m) by lia. cbn. lia. }
      split; [lia|]. split; [exact HA|]. rewrite SUM. split; [lia|]. exists hd. rewrite GS. auto.
    + destruct (p_rg _ _ _ _ _ V _ _ _ R0) as (A1 & B1 & C1 & h1 & D1 & D2 & D3). split; [exact A1|]. split; [exact B1|].
      rewrite (gsum_ext g' g) by (intros x X; rewrite GO; [reflexivity|]; destruct (DJ _ _ _ R0); lia). split; [exact C1|]. exists h1. assert (O1 : m1 < m \/ m + T <= m1) by (destruct (DJ _ _ _ R0); lia). rewrite ME, GO by exact O1. auto.
  - intros x r j t x' r' j' t' E E' LT. destruct (U _ _ _ _ E) as [(-> & -> & -> & ->)|[(L0 & -> & -> & -> & ->)|(O1 & E1)]]; destruct (U _ _ _ _ E') as [(-> & -> & -> & ->)|[(L0' & -> & -> & -> & ->)|(O2 & E2)]]; try lia.
    + destruct (FAR _ _ _ _ E1); lia.
    + destruct (FAR _ _ _ _ E1); lia.
    + apply (p_dis _ _ _ _ _ V _ _ _ _ _ _ _ _ E1 E2 LT).
  - intros m1 T1 al1 m2 T2 al2 R1 R2 LT. destruct (RA _ _ R1) as [(-> & E1)|(N1 & R1')]; destruct (RA _ _ R2) as [(-> & E2)|(N2 & R2')]; [lia|injection E1 as -> ->; destruct (DJ _ _ _ R2'); [lia|]; destruct (p_rg _ _ _ _ _ V _ _ _ R2'); lia|injection E2 as -> ->; destruct (DJ _ _ _ R1'); [lia|lia]|apply (p_rdis _ _ _ _ _ V _ _ _ _ _ _ R1' R2' LT)].
Qed.
