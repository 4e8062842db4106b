(* Ports of the Windows poller stay while they are used: what calls see (a map of handles), and the invariant. *)
Require Import Verif.Base Verif.WrModel.
Require Import List ZArith Bool Lia.
Import ListNotations.
Open Scope Z_scope.

(* ---- what is asked ---- *)
(* handles that are open and their ports, ports made so far, ports freed, and the port of the call each thread is in *)
Record spec := { sm : list (Z * nat); sused : list nat; sfreed : list nat; scur : nat -> option nat }.
Definition spec0 : spec := {| sm := []; sused := []; sfreed := []; scur := fun _ => None |}.
Definition fair (z : spec) (o : obs) : Prop :=
  match o with
  | OCreate _ None => True
  | OCreate _ (Some (h, id)) => lookup h (sm z) = None /\ ~ In id (sused z)
  | OCall _ h r => r = lookup h (sm z)
  | OUse t id => scur z t = Some id /\ ~ In id (sfreed z)
  | OTake t id => scur z t = Some id
  | OLeave t => scur z t <> None
  | OClose _ h r => r = lookup h (sm z)
  | OFreed id => In id (sused z) /\ ~ In id (sfreed z) /\ (forall h, lookup h (sm z) <> Some id) /\ forall t, scur z t <> Some id
  end.
Definition after (z : spec) (o : obs) : spec :=
  match o with
  | OCreate _ (Some (h, id)) => {| sm := (h, id) :: sm z; sused := id :: sused z; sfreed := sfreed z; scur := scur z |}
  | OCall t _ r => {| sm := sm z; sused := sused z; sfreed := sfreed z; scur := set (scur z) t r |}
  | OLeave t => {| sm := sm z; sused := sused z; sfreed := sfreed z; scur := set (scur z) t None |}
  | OClose _ h _ => {| sm := drop h (sm z); sused := sused z; sfreed := sfreed z; scur := scur z |}
  | OFreed id => {| sm := sm z; sused := sused z; sfreed := id :: sfreed z; scur := scur z |}
  | _ => z
  end.
Fixpoint legal (z : spec) (os : list obs) : Prop := match os with [] => True | o :: r => fair z o /\ legal (after z o) r end.
Definition afters (z : spec) (os : list obs) : spec := fold_left after os z.
Lemma legal_app z a b : legal z a -> legal (afters z a) b -> legal z (a ++ b).
Proof. revert z. induction a as [|o a IH]; intros z H1 H2; cbn in *; [exact H2|]. destruct H1. split; auto. Qed.
Lemma afters_app z a b : afters z (a ++ b) = afters (afters z a) b.
Proof. apply fold_left_app. Qed.

(* ---- counting threads ---- *)
Definition b2n (b : bool) : nat := if b then 1%nat else 0%nat.
Fixpoint cnt (P : nat -> bool) (n : nat) : nat := match n with O => 0%nat | S k => (b2n (P k) + cnt P k)%nat end.
Lemma cnt_ext P Q n : (forall t, (t < n)%nat -> P t = Q t) -> cnt P n = cnt Q n.
Proof. induction n as [|n IH]; intros H; cbn; [reflexivity|]. rewrite (H n) by lia. rewrite IH; auto. Qed.
Lemma cnt_set P Q n t : (t < n)%nat -> (forall u, u <> t -> Q u = P u) -> (cnt Q n + b2n (P t) = cnt P n + b2n (Q t))%nat.
Proof.
  induction n as [|n IH]; intros L H; [lia|]. cbn. destruct (Nat.eq_dec t n) as [->|NE].
  - rewrite (cnt_ext Q P n); [lia|]. intros u U. apply H. lia.
  - rewrite (H n) by lia. assert (X : (t < n)%nat) by lia. specialize (IH X H). lia.
Qed.
Lemma cnt_le P n : (cnt P n <= n)%nat.
Proof. induction n as [|n IH]; cbn; [lia|]. destruct (P n); cbn; lia. Qed.
Lemma cnt_0 P n t : cnt P n = 0%nat -> (t < n)%nat -> P t = false.
Proof. induction n as [|n IH]; intros H L; [lia|]. cbn in H. destruct (P n) eqn:E; cbn in H; [lia|]. destruct (Nat.eq_dec t n) as [->|]; [exact E|]. apply IH; lia. Qed.
Lemma cnt_pos P n : cnt P n <> 0%nat -> exists t, (t < n)%nat /\ P t = true.
Proof. induction n as [|n IH]; cbn; [congruence|]. intros H. destruct (P n) eqn:E; [exists n; split; [lia|exact E]|]. destruct IH as (t & L & T); [exact H|]. exists t. split; [lia|exact T]. Qed.
Lemma cnt_none P n : (forall t, P t = false) -> cnt P n = 0%nat.
Proof. intros H. induction n as [|n IH]; cbn; [reflexivity|]. now rewrite H. Qed.

(* ---- one port ---- *)
(* what a thread has to do with the port at an address *)
Inductive loc := XNone | XNew (h : Z) | XIn | XSig | XDel | XClosed | XAwait | XPoison | XFree.
Definition loc_of (a : nat) (x : tst) : loc :=
  match x with
  | TOut | TFound _ _ => XNone
  | TNew b h => if Nat.eqb b a then XNew h else XNone
  | THold b | TLoad b _ => if Nat.eqb b a then XIn else XNone
  | TSig b => if Nat.eqb b a then XSig else XNone
  | TDel b => if Nat.eqb b a then XDel else XNone
  | TClosed b => if Nat.eqb b a then XClosed else XNone
  | TAwait b => if Nat.eqb b a then XAwait else XNone
  | TPoison b => if Nat.eqb b a then XPoison else XNone
  | TFree b => if Nat.eqb b a then XFree else XNone
  end.
Definition isref (x : loc) : bool := match x with XIn | XDel | XClosed => true | _ => false end.

Section Threads.
Variable N : nat.
Hypothesis HN : Z.of_nat N < 268435456.

Definition refs (X : nat -> loc) : nat := cnt (fun t => isref (X t)) N.
Definition only_in (X : nat -> loc) (t : nat) : Prop := forall u, u <> t -> X u = XNone \/ X u = XIn.
Definition only (X : nat -> loc) (t : nat) : Prop := forall u, u <> t -> X u = XNone.
Inductive phase (p : mport) (T : Z -> Prop) (X : nat -> loc) (used : Prop) : Prop :=
| ph_tree h : (forall h', T h' <-> h' = h) -> iocp p = Some h -> rst p = Z.of_nat (refs X) -> (forall t, X t = XNone \/ X t = XIn) -> used -> phase p T X used
| ph_new t h : (forall h', ~ T h') -> iocp p = Some h -> rst p = 0 -> X t = XNew h -> only X t -> ~ used -> phase p T X used
| ph_del t h : (forall h', ~ T h') -> iocp p = Some h -> rst p = Z.of_nat (refs X) -> X t = XDel -> only_in X t -> used -> phase p T X used
| ph_closed t : (forall h', ~ T h') -> iocp p = None -> rst p = Z.of_nat (refs X) -> X t = XClosed -> only_in X t -> used -> phase p T X used
| ph_await t : (forall h', ~ T h') -> iocp p = None -> rst p = DESTROY + Z.of_nat (refs X) -> X t = XAwait -> only_in X t -> refs X <> 0%nat -> used -> phase p T X used
| ph_sig t v : (forall h', ~ T h') -> iocp p = None -> rst p = DESTROY -> X t = XAwait -> X v = XSig -> (forall u, u <> t -> u <> v -> X u = XNone) -> used -> phase p T X used
| ph_poison t : (forall h', ~ T h') -> iocp p = None -> rst p = DESTROY -> X t = XPoison -> only X t -> used -> phase p T X used
| ph_free t : (forall h', ~ T h') -> iocp p = None -> rst p = POISON -> X t = XFree -> only X t -> used -> phase p T X used.
Definition here (m : option mport) (T : Z -> Prop) (X : nat -> loc) (used freed : nat -> Prop) : Prop :=
  match m with
  | None => (forall h, ~ T h) /\ forall t, X t = XNone
  | Some p => phase p T X (used (pid p)) /\ ~ freed (pid p)
  end.

Lemma refs_ext X Y : (forall t, X t = Y t) -> refs X = refs Y.
Proof. intros H. apply cnt_ext. intros t _. now rewrite H. Qed.
Lemma refs_set X Y t : (t < N)%nat -> (forall u, u <> t -> Y u = X u) -> (refs Y + b2n (isref (X t)) = refs X + b2n (isref (Y t)))%nat.
Proof. intros L H. apply (cnt_set (fun t => isref (X t)) (fun t => isref (Y t)) N t L). intros u U. now rewrite H. Qed.
Lemma refs_lt X : Z.of_nat (refs X) < 268435456.
Proof. pose proof (cnt_le (fun t => isref (X t)) N). unfold refs. lia. Qed.

Lemma phase_ext p T T' X Y (U V : Prop) : (forall h, T h <-> T' h) -> (forall t, X t = Y t) -> (U <-> V) -> phase p T X U -> phase p T' Y V.
Proof.
  intros HT HX HU H. pose proof (refs_ext _ _ HX) as R.
  assert (OI : forall t, only_in X t -> only_in Y t) by (intros t O u Hu; rewrite <- HX; exact (O u Hu)).
  assert (O1 : forall t, only X t -> only Y t) by (intros t O u Hu; rewrite <- HX; exact (O u Hu)).
  assert (NT : (forall h, ~ T h) -> forall h, ~ T' h) by (intros A h B; apply (A h), HT, B).
  assert (SX : forall t x, X t = x -> Y t = x) by (intros t x E; rewrite <- HX; exact E).
  destruct H.
  - apply (ph_tree _ _ _ _ h); first [tauto | congruence | intros h'; rewrite <- HT; auto | intros t; rewrite <- HX; auto].
  - apply (ph_new _ _ _ _ t h); first [tauto | congruence | auto].
  - apply (ph_del _ _ _ _ t h); first [tauto | congruence | auto].
  - apply (ph_closed _ _ _ _ t); first [tauto | congruence | auto].
  - apply (ph_await _ _ _ _ t); first [tauto | congruence | auto].
  - apply (ph_sig _ _ _ _ t v); first [tauto | congruence | auto].
  - apply (ph_poison _ _ _ _ t); first [tauto | congruence | auto].
  - apply (ph_free _ _ _ _ t); first [tauto | congruence | auto].
Qed.

(* the words of the reference lock *)
Lemma land_low n : 0 <= n < 268435456 -> Z.land n DESTROY_MASK = 0.
Proof.
  intros H. apply Z.bits_inj'. intros i Hi. rewrite Z.land_spec, Z.bits_0. destruct (Z.ltb_spec i 28).
  - replace (Z.testbit DESTROY_MASK i) with false; [apply andb_false_r|]. change DESTROY_MASK with (Z.shiftl 15 28). rewrite Z.shiftl_spec_low by lia. reflexivity.
  - replace (Z.testbit n i) with false; [reflexivity|]. symmetry. destruct (Z.eq_dec n 0) as [->|]; [apply Z.bits_0|]. apply Z.bits_above_log2; [lia|].
    apply Z.log2_lt_pow2; [lia|]. apply Z.lt_le_trans with (2 ^ 28); [exact (proj2 H)|]. apply Z.pow_le_mono_r; lia.
Qed.
Lemma add_high n : 0 <= n < 268435456 -> DESTROY + n = Z.lor DESTROY n.
Proof.
  intros H. rewrite Z.add_nocarry_lxor, Z.lxor_lor; [reflexivity| |].
  - rewrite Z.land_comm. apply Z.bits_inj'. intros i Hi. pose proof (land_low n H) as L. apply (f_equal (fun x => Z.testbit x i)) in L. rewrite Z.land_spec, Z.bits_0 in *.
    destruct (Z.testbit n i); [|reflexivity]. cbn [andb] in *. destruct (Z.testbit DESTROY i) eqn:E; [|reflexivity].
    assert (Z.testbit DESTROY_MASK i = true); [|congruence]. change DESTROY with (2 ^ 28) in E. destruct (Z.eq_dec i 28) as [->|NE]; [reflexivity|].
    rewrite Z.pow2_bits_false in E by lia. discriminate.
  - rewrite Z.land_comm. apply Z.bits_inj'. intros i Hi. pose proof (land_low n H) as L. apply (f_equal (fun x => Z.testbit x i)) in L. rewrite Z.land_spec, Z.bits_0 in *.
    destruct (Z.testbit n i); [|reflexivity]. cbn [andb] in *. destruct (Z.testbit DESTROY i) eqn:E; [|reflexivity].
    assert (Z.testbit DESTROY_MASK i = true); [|congruence]. change DESTROY with (2 ^ 28) in E. destruct (Z.eq_dec i 28) as [->|NE]; [reflexivity|].
    rewrite Z.pow2_bits_false in E by lia. discriminate.
Qed.
Lemma land_high n : 0 <= n < 268435456 -> Z.land (DESTROY + n) DESTROY_MASK = DESTROY.
Proof. intros H. rewrite (add_high n H), Z.land_lor_distr_l, (land_low n H). reflexivity. Qed.
Lemma land_ref n : 0 <= n < 268435456 -> Z.land (DESTROY + n) REF_MASK = n.
Proof. intros H. change REF_MASK with (Z.ones 28). rewrite Z.land_ones by lia. change (2 ^ 28) with 268435456. change DESTROY with 268435456. rewrite <- (Z.mod_small n 268435456) at 2 by lia. rewrite Z.add_mod by lia. rewrite Z.mod_same by lia. cbn [Z.add]. apply Z.mod_mod. lia. Qed.
Lemma land_rest n : 0 <= n < 268435456 -> Z.land n (Z.land DESTROY_MASK (Z.lnot DESTROY)) = 0 /\ Z.land (DESTROY + n) (Z.land DESTROY_MASK (Z.lnot DESTROY)) = 0.
Proof.
  intros H. split; rewrite Z.land_assoc; [now rewrite (land_low n H)|]. rewrite (land_high n H). reflexivity.
Qed.
Lemma w32_small n : 0 <= n < 4294967296 -> w32 n = n.
Proof. apply Z.mod_small. Qed.

(* ---- what one thread does to one port ---- *)
Definition chg (X : nat -> loc) (t : nat) (x : loc) (Y : nat -> loc) : Prop := Y t = x /\ forall u, u <> t -> Y u = X u.
Lemma chg_refs X t x Y : (t < N)%nat -> chg X t x Y -> (refs Y + b2n (isref (X t)) = refs X + b2n (isref x))%nat.
Proof. intros L [A B]. rewrite <- A. apply refs_set; assumption. Qed.
Lemma chg_all X t x Y (P : loc -> Prop) : chg X t x Y -> P x -> (forall u, u <> t -> P (X u)) -> forall u, P (Y u).
Proof. intros [A B] H1 H2 u. destruct (Nat.eq_dec u t) as [->|NE]; [rewrite A; exact H1|rewrite B by exact NE; auto]. Qed.
Lemma chg_oi X t x Y w : chg X t x Y -> w <> t -> (x = XNone \/ x = XIn) -> only_in X w -> only_in Y w.
Proof. intros [A B] NE H O u U. destruct (Nat.eq_dec u t) as [->|N2]; [rewrite A; exact H|rewrite B by exact N2; auto]. Qed.

Ltac other X t E := let NE := fresh "NE" in assert (NE : X <> t) by (intros ->; congruence).

Lemma L_in p T X U t Y h : (t < N)%nat -> phase p T X U -> T h -> X t = XNone -> chg X t XIn Y ->
  let v := w32 (rst p + REF) in Z.land v DESTROY_MASK = 0 /\ phase (mkm v (iocp p) (pid p)) T Y U.
Proof.
  intros L H TH E C v. pose proof (chg_refs _ _ _ _ L C) as R. rewrite E in R. cbn in R. pose proof (refs_lt Y) as LT.
  destruct H as [h0 HT I Rs O u| t0 h0 NT | t0 h0 NT | t0 NT | t0 NT | t0 v0 NT | t0 NT | t0 NT]; try (elim (NT h TH)).
  assert (V : v = Z.of_nat (refs Y)) by (unfold v, REF; rewrite Rs, w32_small; lia). split; [rewrite V; apply land_low; lia|].
  apply (ph_tree _ _ _ _ h0); cbn; auto. apply (chg_all _ _ _ _ (fun x => x = XNone \/ x = XIn) C); auto.
Qed.
Lemma L_out p T X U t : (forall u, (N <= u)%nat -> X u = XNone) -> (t < N)%nat -> phase p T X U -> X t = XIn ->
  let v := w32 (rst p - REF) in Z.land v (Z.land DESTROY_MASK (Z.lnot DESTROY)) = 0 /\
  forall Y, chg X t (if v =? DESTROY then XSig else XNone) Y -> phase (mkm v (iocp p) (pid p)) T Y U.
Proof.
  intros FAR L H E v.
  assert (R : forall Y, chg X t (if v =? DESTROY then XSig else XNone) Y -> refs X = S (refs Y)).
  { intros Y C. pose proof (chg_refs _ _ _ _ L C) as R. rewrite E in R. cbn in R. destruct (v =? DESTROY); cbn in R; lia. }
  pose proof (refs_lt X) as LT.
  assert (P : (0 < refs X)%nat).
  { destruct (refs X) eqn:Z0; [|lia]. pose proof (cnt_0 _ _ t Z0 L) as F. cbn in F. rewrite E in F. discriminate. }
  assert (CL : v = Z.of_nat (refs X) - 1 -> (v =? DESTROY) = false) by (intros V; apply Z.eqb_neq; unfold DESTROY; lia).
  destruct H as [h0 HT I Rs O u| t0 h0 NT I Rs E0 O u| t0 h0 NT I Rs E0 O u | t0 NT I Rs E0 O u | t0 NT I Rs E0 O NZ u | t0 v0 NT I Rs E0 E1 O u | t0 NT I Rs E0 O u| t0 NT I Rs E0 O u].
  - assert (V : v = Z.of_nat (refs X) - 1) by (unfold v, REF; rewrite Rs, w32_small; lia). clearbody v. rewrite (CL V) in *. split; [rewrite V; apply land_rest; lia|]. intros Y C. specialize (R Y C).
    apply (ph_tree _ _ _ _ h0); cbn; auto; [lia|]. apply (chg_all _ _ _ _ (fun x => x = XNone \/ x = XIn) C); auto.
  - other t t0 E. rewrite (O t NE) in E. discriminate.
  - other t0 t E. assert (V : v = Z.of_nat (refs X) - 1) by (unfold v, REF; rewrite Rs, w32_small; lia). clearbody v. rewrite (CL V) in *. split; [rewrite V; apply land_rest; lia|]. intros Y C. specialize (R Y C).
    apply (ph_del _ _ _ _ t0 h0); cbn; auto; [lia|destruct C as [_ C]; rewrite C; auto|]. eapply chg_oi; eauto.
  - other t0 t E. assert (V : v = Z.of_nat (refs X) - 1) by (unfold v, REF; rewrite Rs, w32_small; lia). clearbody v. rewrite (CL V) in *. split; [rewrite V; apply land_rest; lia|]. intros Y C. specialize (R Y C).
    apply (ph_closed _ _ _ _ t0); cbn; auto; [lia|destruct C as [_ C]; rewrite C; auto|]. eapply chg_oi; eauto.
  - other t0 t E. assert (V : v = DESTROY + (Z.of_nat (refs X) - 1)) by (unfold v, REF, DESTROY in *; rewrite Rs, w32_small; lia). clearbody v. split; [rewrite V; apply land_rest; lia|]. intros Y C. specialize (R Y C).
    destruct (Z.eqb_spec v DESTROY) as [D|D].
    + assert (Z0 : refs Y = 0%nat) by (unfold DESTROY in *; lia). destruct C as [C1 C2]. apply (ph_sig _ _ _ _ t0 t); cbn; auto; [rewrite C2; auto|].
      intros w W1 W2. destruct (O w W1) as [Q|Q]; rewrite C2 by exact W2; [exact Q|].
      destruct (Nat.lt_ge_cases w N) as [LW|GW]; [pose proof (cnt_0 _ _ w Z0 LW) as F; cbn in F; rewrite C2, Q in F by exact W2; discriminate|].
      exfalso. rewrite (FAR w GW) in Q. discriminate.
    + apply (ph_await _ _ _ _ t0); cbn [rst iocp pid]; auto; [rewrite V; replace (refs X) with (S (refs Y)) by lia; lia|destruct C as [_ C]; rewrite C; auto| |lia]. eapply chg_oi; eauto.
  - assert (NE : t <> t0) by congruence. assert (NE2 : t <> v0) by congruence. rewrite (O t NE NE2) in E. discriminate.
  - other t t0 E. rewrite (O t NE) in E. discriminate.
  - other t t0 E. rewrite (O t NE) in E. discriminate.
Qed.

Ltac phases H := destruct H as [h0 HT I Rs O u| t0 h0 NT I Rs E0 O u| t0 h0 NT I Rs E0 O u | t0 NT I Rs E0 O u | t0 NT I Rs E0 O NZ u | t0 v0 NT I Rs E0 E1 O u | t0 NT I Rs E0 O u| t0 NT I Rs E0 O u].
Lemma L_del p T X U t Y h T' : (t < N)%nat -> phase p T X U -> T h -> X t = XNone -> (forall h', T' h' <-> T h' /\ h' <> h) -> chg X t XDel Y ->
  let v := w32 (rst p + REF) in Z.land v DESTROY_MASK = 0 /\ phase (mkm v (iocp p) (pid p)) T' Y U.
Proof.
  intros L H TH E HT' C v. pose proof (chg_refs _ _ _ _ L C) as R. rewrite E in R. cbn in R. pose proof (refs_lt Y) as LT.
  phases H; try (elim (NT h TH)).
  assert (V : v = Z.of_nat (refs Y)) by (unfold v, REF; rewrite Rs, w32_small; lia). clearbody v. split; [rewrite V; apply land_low; lia|].
  apply (ph_del _ _ _ _ t h0); cbn [rst iocp pid]; auto.
  - intros h' Q. apply HT' in Q as (Q1 & Q2). apply HT in TH, Q1. congruence.
  - apply C.
  - intros w W. destruct C as [_ C]. rewrite C by exact W. apply O.
Qed.
Lemma L_close p T X U t Y : (t < N)%nat -> phase p T X U -> X t = XDel -> chg X t XClosed Y -> phase (mkm (rst p) None (pid p)) T Y U.
Proof.
  intros L H E C. pose proof (chg_refs _ _ _ _ L C) as R. rewrite E in R. cbn in R.
  phases H.
  - destruct (O t); congruence.
  - other t t0 E. rewrite (O t NE) in E. discriminate.
  - assert (Q : t = t0) by (destruct (Nat.eq_dec t t0) as [Q|NE]; [exact Q|]; destruct (O t NE); congruence). subst t0.
    apply (ph_closed _ _ _ _ t); cbn [rst iocp pid]; auto; [rewrite Rs; f_equal; lia|apply C|]. intros w W. destruct C as [_ C]. rewrite C by exact W. auto.
  - other t t0 E. destruct (O t NE); congruence.
  - other t t0 E. destruct (O t NE); congruence.
  - assert (NE : t <> t0) by congruence. assert (NE2 : t <> v0) by congruence. rewrite (O t NE NE2) in E. discriminate.
  - other t t0 E. rewrite (O t NE) in E. discriminate.
  - other t t0 E. rewrite (O t NE) in E. discriminate.
Qed.
Lemma del_iocp p T X U t : phase p T X U -> X t = XDel -> exists h, iocp p = Some h.
Proof.
  intros H E. phases H; eauto; try (other t t0 E).
  - destruct (O t NE); congruence.
  - destruct (O t NE); congruence.
  - assert (NE2 : t <> v0) by congruence. rewrite (O t NE NE2) in E. discriminate.
  - rewrite (O t NE) in E. discriminate.
  - rewrite (O t NE) in E. discriminate.
Qed.
Lemma L_destroy p T X U t : (forall u, (N <= u)%nat -> X u = XNone) -> (t < N)%nat -> phase p T X U -> X t = XClosed ->
  let v := w32 (rst p + (DESTROY - REF)) in Z.land v DESTROY_MASK = DESTROY /\
  forall Y, chg X t (if negb (Z.land v REF_MASK =? 0) then XAwait else XPoison) Y -> phase (mkm v (iocp p) (pid p)) T Y U.
Proof.
  intros FAR L H E v. pose proof (refs_lt X) as LT.
  assert (P : (0 < refs X)%nat).
  { destruct (refs X) eqn:Z0; [|lia]. pose proof (cnt_0 _ _ t Z0 L) as F. cbn in F. rewrite E in F. discriminate. }
  assert (R : forall Y, chg X t (if negb (Z.land v REF_MASK =? 0) then XAwait else XPoison) Y -> refs X = S (refs Y)).
  { intros Y C. pose proof (chg_refs _ _ _ _ L C) as R. rewrite E in R. destruct (negb _); cbn in R; lia. }
  phases H; try (other t t0 E).
  - destruct (O t); congruence.
  - rewrite (O t NE) in E. discriminate.
  - destruct (O t NE); congruence.
  - assert (Q : t = t0) by (destruct (Nat.eq_dec t t0) as [Q|NE]; [exact Q|]; destruct (O t NE); congruence). subst t0.
    assert (V : v = DESTROY + (Z.of_nat (refs X) - 1)) by (unfold v, REF, DESTROY; rewrite Rs, w32_small; lia). clearbody v.
    assert (LR : Z.land v REF_MASK = Z.of_nat (refs X) - 1) by (rewrite V; apply land_ref; lia). rewrite LR in *.
    split; [rewrite V; apply land_high; lia|]. intros Y C. specialize (R Y C). destruct (Z.eqb_spec (Z.of_nat (refs X) - 1) 0) as [Z0|NZ]; cbn [negb] in C.
    + assert (RY : refs Y = 0%nat) by lia. apply (ph_poison _ _ _ _ t); cbn [rst iocp pid]; auto; [rewrite V, Z0; reflexivity|apply C|].
      intros w W. destruct C as [_ C]. destruct (O w W) as [Q|Q]; rewrite C by exact W; [exact Q|].
      destruct (Nat.lt_ge_cases w N) as [LW|GW]; [pose proof (cnt_0 _ _ w RY LW) as F; cbn in F; rewrite C, Q in F by exact W; discriminate|].
      exfalso. rewrite (FAR w GW) in Q. discriminate.
    + apply (ph_await _ _ _ _ t); cbn [rst iocp pid]; auto; [rewrite V; replace (refs X) with (S (refs Y)) by lia; lia|apply C| |lia].
      intros w W. destruct C as [_ C]. rewrite C by exact W. auto.
  - destruct (O t NE); congruence.
  - assert (NE2 : t <> v0) by congruence. rewrite (O t NE NE2) in E. discriminate.
  - rewrite (O t NE) in E. discriminate.
  - rewrite (O t NE) in E. discriminate.
Qed.
Lemma L_meet p T X U t w Y Y' : phase p T X U -> X t = XSig -> X w = XAwait -> chg X t XNone Y -> chg Y w XPoison Y' -> phase p T Y' U.
Proof.
  intros H E EW C C'. phases H; try (other t t0 E).
  - destruct (O t); congruence.
  - rewrite (O t NE) in E. discriminate.
  - destruct (O t NE); congruence.
  - destruct (O t NE); congruence.
  - destruct (O t NE); congruence.
  - assert (Q : t = v0) by (destruct (Nat.eq_dec t v0) as [Q|N2]; [exact Q|]; rewrite (O t NE N2) in E; discriminate). subst v0.
    assert (Q : w = t0) by (destruct (Nat.eq_dec w t0) as [Q|N2]; [exact Q|]; assert (w <> t) by congruence; rewrite (O w N2) in EW by assumption; discriminate). subst t0.
    destruct C as [C1 C2], C' as [D1 D2]. apply (ph_poison _ _ _ _ w); auto. intros x Hx. rewrite D2 by exact Hx. destruct (Nat.eq_dec x t) as [->|NX]; [exact C1|]. rewrite C2 by exact NX. auto.
  - rewrite (O t NE) in E. discriminate.
  - rewrite (O t NE) in E. discriminate.
Qed.
Lemma L_poison p T X U t Y : phase p T X U -> X t = XPoison -> chg X t XFree Y -> rst p = DESTROY /\ phase (mkm POISON (iocp p) (pid p)) T Y U.
Proof.
  intros H E C. phases H; try (other t t0 E).
  - destruct (O t); congruence.
  - rewrite (O t NE) in E. discriminate.
  - destruct (O t NE); congruence.
  - destruct (O t NE); congruence.
  - destruct (O t NE); congruence.
  - assert (NE2 : t <> v0) by congruence. rewrite (O t NE NE2) in E. discriminate.
  - assert (Q : t = t0) by (destruct (Nat.eq_dec t t0) as [Q|NE]; [exact Q|]; rewrite (O t NE) in E; congruence). subst t0.
    split; [exact Rs|]. destruct C as [C1 C2]. apply (ph_free _ _ _ _ t); cbn [rst iocp pid]; auto. intros x Hx. rewrite C2 by exact Hx. auto.
  - rewrite (O t NE) in E. discriminate.
Qed.
Lemma L_free p T X (U : Prop) t Y : phase p T X U -> X t = XFree -> chg X t XNone Y -> iocp p = None /\ U /\ (forall h, ~ T h) /\ (forall u, Y u = XNone) /\ forall u, X u <> XIn.
Proof.
  intros H E C. phases H; try (other t t0 E).
  - destruct (O t); congruence.
  - rewrite (O t NE) in E. discriminate.
  - destruct (O t NE); congruence.
  - destruct (O t NE); congruence.
  - destruct (O t NE); congruence.
  - assert (NE2 : t <> v0) by congruence. rewrite (O t NE NE2) in E. discriminate.
  - rewrite (O t NE) in E. discriminate.
  - assert (Q : t = t0) by (destruct (Nat.eq_dec t t0) as [Q|NE]; [exact Q|]; rewrite (O t NE) in E; congruence). subst t0.
    do 3 (split; [assumption|]). split.
    + intros x. destruct C as [C1 C2]. destruct (Nat.eq_dec x t) as [->|NX]; [exact C1|]. rewrite C2 by exact NX. auto.
    + intros x. destruct (Nat.eq_dec x t) as [->|NX]; [congruence|]. rewrite (O x NX). discriminate.
Qed.
Lemma L_add p T X (U U' : Prop) t Y h T' : (t < N)%nat -> phase p T X U -> X t = XNew h -> chg X t XNone Y -> (forall h', T' h' <-> h' = h) -> U' -> ~ U /\ iocp p = Some h /\ phase p T' Y U'.
Proof.
  intros L H E C HT' u'. phases H.
  - destruct (O t); congruence.
  - assert (Q : t = t0) by (destruct (Nat.eq_dec t t0) as [Q|NE]; [exact Q|]; rewrite (O t NE) in E; congruence). subst t0.
    assert (h0 = h) by congruence. subst h0. split; [exact u|]. split; [exact I|]. apply (ph_tree _ _ _ _ h); auto.
    + rewrite Rs. replace (refs Y) with 0%nat; [reflexivity|]. symmetry. apply cnt_none. intros x. destruct C as [C1 C2]. destruct (Nat.eq_dec x t) as [->|NX]; [now rewrite C1|]. rewrite C2, (O x NX) by exact NX. reflexivity.
    + intros x. left. destruct C as [C1 C2]. destruct (Nat.eq_dec x t) as [->|NX]; [exact C1|]. rewrite C2 by exact NX. auto.
  - other t t0 E. destruct (O t NE); congruence.
  - other t t0 E. destruct (O t NE); congruence.
  - other t t0 E. destruct (O t NE); congruence.
  - assert (NE : t <> t0) by congruence. assert (NE2 : t <> v0) by congruence. rewrite (O t NE NE2) in E. discriminate.
  - other t t0 E. rewrite (O t NE) in E. discriminate.
  - other t t0 E. rewrite (O t NE) in E. discriminate.
Qed.
End Threads.
