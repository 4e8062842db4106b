(* What a context switch has to do, and that the tables do it. *)
From Coq Require Import ZArith List Bool Lia.
From Verif Require Import Base AxModel AxProofs.
Import ListNotations.
Open Scope Z_scope.

(* ---- specification ---- *)

(* The number of addresses of a machine of w-byte words. *)
Definition space (w : Z) : Z := 2 ^ (8 * w).

(* The largest multiple of 16 that is not above a. *)
Definition floor16 (a : Z) : Z := 16 * (a / 16).

(* What a called function must hand back unchanged to its caller. *)
Inductive kept :=
| KReg (r : nat)   (* a general register *)
| KLow (x : nat)   (* the low 8 bytes of a vector register *)
| KHigh (x : nat)  (* its high 8 bytes *)
| KTib (o : Z).    (* a word of the thread information block *)

Definition get (m : mach) (k : kept) : Z :=
  match k with
  | KReg r => reg m r
  | KLow x => fst (fp m x)
  | KHigh x => snd (fp m x)
  | KTib o => mem m (tib m + o)
  end.

Inductive tibkind := NoTib | SelfTib | RegTib (r : nat).

(* A calling convention and the program for it: bytes of a word, bytes of the
   register area at the start of a task, the stack pointer, the registers of
   the two arguments, where the return address is (on the stack, or in a
   register), what must be kept, how the thread information block is found,
   the switch, the set-up of a new task, the function a new task starts in
   and the number of bytes of return address it finds on its stack. *)
Record arch := mkA {
  a_w : Z; a_area : Z; a_sp : nat; a_first : nat; a_second : nat;
  a_ret : option nat; a_kept : list kept; a_tib : tibkind;
  a_swap : mach -> outcome (mach * Z);
  a_derive : mach -> Z -> Z -> outcome mach;
  a_entry : Z; a_room : Z }.

(* A suspended computation: where it goes on, its stack pointer there, and
   the values it must find. *)
Record ctx := mkC { c_pc : Z; c_sp : Z; c_vals : list Z }.

(* What a caller of the switch has to find when it is resumed. *)
Definition ctx_of (A : arch) (m : mach) : ctx :=
  match a_ret A with
  | None => mkC (mem m (reg m (a_sp A))) (reg m (a_sp A) + a_w A) (map (get m) (a_kept A))
  | Some r => mkC (reg m r) (reg m (a_sp A)) (map (get m) (a_kept A))
  end.

Definition resumed (A : arch) (m : mach) (pc : Z) (c : ctx) : Prop :=
  pc = c_pc c /\ reg m (a_sp A) = c_sp c /\ map (get m) (a_kept A) = c_vals c.

(* The words that belong to a suspended task's switch: its register area and
   the return address on its stack. *)
Definition guard (A : arch) (k : Z) (c : ctx) (a : Z) : Prop :=
  k <= a < k + a_area A \/ (a_ret A = None /\ a = c_sp c - a_w A).

Definition tib_ok (A : arch) (m : mach) : Prop :=
  match a_tib A with
  | NoTib => True
  | SelfTib => mem m (tib m + 48) = tib m
  | RegTib r => reg m r = tib m
  end.

Definition has_tib (A : arch) : bool := match a_tib A with NoTib => false | _ => true end.

(* ---- histories ---- *)

(* [Work m']: the running task computes, to the machine m'; [New h n]: it
   makes a task in the block of n bytes at h; [Drop h]: a task that is not
   running is given up; [Switch h]: it calls the switch to h. *)
Inductive op := Work (m : mach) | New (h n : Z) | Drop (h : Z) | Switch (h : Z).

Definition gset (g : Z -> option ctx) (k : Z) (v : option ctx) : Z -> option ctx :=
  fun x => if x =? k then v else g x.

Definition live (g : Z -> option ctx) (cur k : Z) : Prop := k = cur \/ g k <> None.

(* What callers have to respect. *)
Definition may_work (A : arch) (g : Z -> option ctx) (m m' : mach) : Prop :=
  tib m' = tib m /\ forall k c a, g k = Some c -> guard A k c a -> mem m' a = mem m a.

Definition may_new (A : arch) (g : Z -> option ctx) (cur : Z) (m : mach) (h n : Z) : Prop :=
  0 < h /\ h mod 16 = 0 /\ h + n < space (a_w A) /\ a_area A + 64 <= n /\
  (forall k, live g cur k -> k + a_area A <= h \/ h + n <= k) /\
  (forall k c a, g k = Some c -> guard A k c a -> ~ (h <= a < h + n)) /\
  (has_tib A = true -> tib m + 56 <= h \/ h + n <= tib m).

Definition may_switch (A : arch) (g : Z -> option ctx) (cur : Z) (m : mach) (h : Z) : Prop :=
  g h <> None /\ reg m (a_first A) = h /\ reg m (a_second A) = cur /\ tib_ok A m /\
  (a_ret A = None ->
   let sp := reg m (a_sp A) in
   0 <= sp /\ sp + a_w A < space (a_w A) /\ sp mod a_w A = 0 /\
   (forall k, live g cur k -> ~ (k <= sp < k + a_area A)) /\
   (has_tib A = true -> ~ (tib m <= sp < tib m + 56))).

Fixpoint legal (A : arch) (g : Z -> option ctx) (cur : Z) (m : mach) (l : list op) : Prop :=
  match l with
  | [] => True
  | Work m' :: r => may_work A g m m' /\ legal A g cur m' r
  | New h n :: r =>
    may_new A g cur m h n /\
    forall m' vals, a_derive A m h n = Ok m' ->
      legal A (gset g h (Some (mkC (a_entry A) (floor16 (h + n - a_room A) - (if a_ret A then 0 else a_w A)) vals)))
            cur m' r
  | Drop h :: r => legal A (gset g h None) cur m r
  | Switch h :: r =>
    may_switch A g cur m h /\
    forall m' pc, a_swap A m = Ok (m', pc) ->
      legal A (gset (gset g cur (Some (ctx_of A m))) h None) h m' r
  end.

(* What they get: every set-up and every switch completes, and each switch
   resumes the task as it was when it last called the switch. *)
Fixpoint plays (A : arch) (g : Z -> option ctx) (cur : Z) (m : mach) (l : list op) : Prop :=
  match l with
  | [] => True
  | Work m' :: r => plays A g cur m' r
  | New h n :: r =>
    exists m' vals, a_derive A m h n = Ok m' /\
      plays A (gset g h (Some (mkC (a_entry A) (floor16 (h + n - a_room A) - (if a_ret A then 0 else a_w A)) vals)))
            cur m' r
  | Drop h :: r => plays A (gset g h None) cur m r
  | Switch h :: r =>
    exists m' pc c, g h = Some c /\ a_swap A m = Ok (m', pc) /\ resumed A m' pc c /\
      plays A (gset (gset g cur (Some (ctx_of A m))) h None) h m' r
  end.

(* The first task: the thread itself, its register area in the thread's own
   data. *)
Definition starts (A : arch) (cur : Z) (m : mach) : Prop :=
  0 < cur /\ cur mod 16 = 0 /\ cur + a_area A < space (a_w A) /\
  (has_tib A = true ->
   0 <= tib m /\ tib m + 56 < space (a_w A) /\ tib m mod 8 = 0 /\
   (tib m + 56 <= cur \/ cur + a_area A <= tib m)).

(* ---- the check of a table by symbolic execution ---- *)

Definition sval_eqb (a b : sval) : bool :=
  match a, b with
  | VReg r, VReg q => Nat.eqb r q
  | VFpL r, VFpL q => Nat.eqb r q
  | VFpH r, VFpH q => Nat.eqb r q
  | VMem t o, VMem t' o' => root_eqb t t' && (o =? o')
  | VRoot t o, VRoot t' o' => root_eqb t t' && (o =? o')
  | VZero, VZero => true
  | _, _ => false
  end.

Lemma sval_eqb_eq a b : sval_eqb a b = true -> a = b.
Proof.
  destruct a, b; simpl; intros H; try discriminate; try reflexivity;
    try (apply Nat.eqb_eq in H; subst; reflexivity);
    apply andb_true_iff in H as (H1 & H2); apply root_eqb_spec in H1; apply Z.eqb_eq in H2;
    subst; reflexivity.
Qed.

Definition lim_of (A : arch) (t : root) : Z :=
  match t with
  | RH | RP => a_area A
  | RS => if a_ret A then 0 else a_w A
  | RT => if has_tib A then 56 else 0
  end.

Definition s_init (A : arch) : sst :=
  mkS ([(a_first A, VRoot RH 0); (a_second A, VRoot RP 0)]
       ++ match a_tib A with RegTib r => [(r, VRoot RT 0)] | _ => [] end) []
      (match a_ret A with None => [(RH, 0, VRoot RS 0)] | Some _ => [] end
       ++ match a_tib A with SelfTib => [(RT, 48, VRoot RT 0)] | _ => [] end).

(* A kept thing before, and after. *)
Definition s_old (k : kept) : sval :=
  match k with
  | KReg r => VReg r | KLow x => VFpL x | KHigh x => VFpH x | KTib o => VMem RT o
  end.
Definition s_new (s : sst) (k : kept) : sval :=
  match k with
  | KReg r => rlook (sreg s) r
  | KLow x => fst (flook (sfp s) x)
  | KHigh x => snd (flook (sfp s) x)
  | KTib o => mlook (smem s) RT o
  end.

Definition k_in (A : arch) (k : kept) : bool :=
  match k with KTib o => inb (a_w A) (lim_of A) RT o | _ => true end.

Definition store_ok (A : arch) (e : root * Z * sval) : bool :=
  let '(t, o, v) := e in
  match t with
  | RP => true
  | RT => (o =? 8) || (o =? 16) || sval_eqb v (VRoot RT 0) && (o =? 48)
          && match a_tib A with SelfTib => true | _ => false end
  | RH => (o =? 0) && sval_eqb v (VRoot RS 0)
          && match a_ret A with None => true | Some _ => false end
  | RS => false
  end.

Definition check (A : arch) (offs : list Z) (p : option (list ins)) : bool :=
  match p with
  | None => false
  | Some prog =>
    match sexec (a_w A) (lim_of A) prog (s_init A) with
    | None => false
    | Some (s, pv) =>
      let L := lim_of A in
      let w := a_w A in
      ((w =? 4) || (w =? 8)) && (a_area A mod w =? 0) && (0 <? a_area A) &&
      Nat.eqb (length offs) (length (a_kept A)) &&
      forallb (k_in A) (a_kept A) &&
      forallb (fun o => inb w L RP o) offs && inb w L RP 0 && inb w L RP 8 &&
      negb (Nat.eqb (a_first A) (a_second A)) &&
      (match a_tib A with
       | RegTib r => negb (Nat.eqb (a_first A) r) && negb (Nat.eqb (a_second A) r)
       | _ => true end) &&
      forallb (fun ko => sval_eqb (s_new s (fst ko)) (VMem RH (snd ko))
                         && sval_eqb (mlook (smem s) RP (snd ko)) (s_old (fst ko)))
              (combine (a_kept A) offs) &&
      forallb (store_ok A) (smem s) &&
      (match a_ret A with
       | None => sval_eqb pv (VMem RS 0) && sval_eqb (rlook (sreg s) (a_sp A)) (VRoot RS w)
                 && sval_eqb (mlook (smem s) RP 0) (VReg (a_sp A))
       | Some r => sval_eqb pv (VMem RH 8) && sval_eqb (rlook (sreg s) (a_sp A)) (VMem RH 0)
                 && sval_eqb (mlook (smem s) RP 0) (VReg (a_sp A))
                 && sval_eqb (mlook (smem s) RP 8) (VReg r)
       end)
    end
  end.

(* The stored form of a suspended task. *)
Definition holds (A : arch) (offs : list Z) (m : mach) (h : Z) (c : ctx) : Prop :=
  match a_ret A with
  | None => mem m h = c_sp c - a_w A /\ mem m (c_sp c - a_w A) = c_pc c
  | Some _ => mem m h = c_sp c /\ mem m (h + 8) = c_pc c
  end /\ map (fun o => mem m (h + o)) offs = c_vals c.

Definition ctx_placed (A : arch) (L : Z -> Prop) (T : Z) (c : ctx) : Prop :=
  a_ret A = None ->
  0 <= c_sp c - a_w A /\ c_sp c < space (a_w A) /\ (c_sp c - a_w A) mod a_w A = 0 /\
  (forall k, L k -> ~ (k <= c_sp c - a_w A < k + a_area A)) /\
  (has_tib A = true -> ~ (T <= c_sp c - a_w A < T + 56)).

Definition area_placed (A : arch) (T k : Z) : Prop :=
  0 < k /\ k mod 16 = 0 /\ k + a_area A < space (a_w A) /\
  (has_tib A = true -> T + 56 <= k \/ k + a_area A <= T).

Definition apart (A : arch) (k k' : Z) : Prop := k + a_area A <= k' \/ k' + a_area A <= k.

Definition tib_placed (A : arch) (T : Z) : Prop :=
  has_tib A = true -> 0 <= T /\ T + 56 < space (a_w A) /\ T mod 8 = 0.

Definition switch_ok (A : arch) (offs : list Z) : Prop :=
  forall m p h c,
  let L := fun k => k = p \/ k = h in
  p <> h -> area_placed A (tib m) p -> area_placed A (tib m) h -> apart A p h ->
  tib_placed A (tib m) -> tib_ok A m ->
  holds A offs m h c -> ctx_placed A L (tib m) c ->
  (a_ret A = None -> ctx_placed A L (tib m) (ctx_of A m)) ->
  reg m (a_first A) = h -> reg m (a_second A) = p ->
  exists m' pc, a_swap A m = Ok (m', pc) /\ resumed A m' pc c /\ tib m' = tib m /\
    holds A offs m' p (ctx_of A m) /\
    forall a, ~ (p <= a < p + a_area A) ->
      (has_tib A = true -> a <> tib m + 8 /\ a <> tib m + 16) -> mem m' a = mem m a.

Lemma map_combine_ext {X Y : Type} (f : X -> Z) (g : Y -> Z) :
  forall (l : list X) (o : list Y), length o = length l ->
  (forall x y, In (x, y) (combine l o) -> f x = g y) -> map f l = map g o.
Proof.
  induction l as [|x l IH]; intros [|y o] Hl H; simpl in *; try lia; [reflexivity|].
  f_equal; [apply H; left; reflexivity|]. apply IH; [lia|]. intros; apply H; right; assumption.
Qed.

Lemma check_switch A offs p :
  a_swap A = run_code (a_w A) p -> check A offs p = true -> switch_ok A offs.
Proof.
  intros HS HC. unfold check in HC. destruct p as [prog|]; [|discriminate].
  destruct (sexec (a_w A) (lim_of A) prog (s_init A)) as [[s pv]|] eqn:Ex; [|discriminate].
  cbv zeta in HC.
  repeat match goal with H : _ && _ = true |- _ => apply andb_true_iff in H; destruct H end.
  match goal with H : (a_w A =? 4) || (a_w A =? 8) = true |- _ => rename H into Hw0 end.
  match goal with H : (a_area A mod a_w A =? 0) = true |- _ => rename H into Har0 end.
  match goal with H : (0 <? a_area A) = true |- _ => rename H into Har1 end.
  match goal with H : Nat.eqb (length offs) _ = true |- _ => rename H into Hlen end.
  match goal with H : forallb (k_in A) _ = true |- _ => rename H into Hkin end.
  match goal with H : forallb (fun o => inb _ _ _ o) offs = true |- _ => rename H into Hoffs end.
  match goal with H : inb _ _ RP 0 = true |- _ => rename H into Hin0 end.
  match goal with H : inb _ _ RP 8 = true |- _ => rename H into Hin8 end.
  match goal with H : negb (Nat.eqb _ _) = true |- _ => rename H into Hne end.
  match goal with H : match a_tib A with _ => _ end = true |- _ => rename H into Htr end.
  match goal with H : forallb _ (combine _ _) = true |- _ => rename H into Hcomb end.
  match goal with H : forallb (store_ok A) _ = true |- _ => rename H into Hst end.
  match goal with H : match a_ret A with _ => _ end = true |- _ => rename H into Hret end.
  apply orb_true_iff in Hw0. rewrite !Z.eqb_eq in Hw0. apply Z.eqb_eq in Har0. apply Z.ltb_lt in Har1.
  apply Nat.eqb_eq in Hlen. apply negb_true_iff, Nat.eqb_neq in Hne.
  rewrite forallb_forall in Hkin, Hoffs, Hcomb, Hst.
  intros m q h c L Hqh (Hq1 & Hq2 & Hq3 & Hq4) (Hh1 & Hh2 & Hh3 & Hh4) Hap Htp Htok Hho Hcp Hcp0 Hfi Hse.
  set (base := fun t => match t with
    | RH => h | RP => q | RS => if a_ret A then 0 else c_sp c - a_w A
    | RT => if has_tib A then tib m else 0 end).
  assert (HL : laid (a_w A) (lim_of A) base).
  { unfold laid. split; [|split].
    - assert (Htop : 0 < space (a_w A)) by (unfold space; apply Z.pow_pos_nonneg; lia).
      change top_of with space.
      intros [| | |]; simpl.
      + destruct Hw0 as [E|E]; rewrite E in *; lia.
      + destruct Hw0 as [E|E]; rewrite E in *; lia.
      + destruct (a_ret A) eqn:Er; [repeat split; try lia; apply Z.mod_0_l; lia|].
        destruct (Hcp Er) as (P1 & P2 & P3 & _). repeat split; lia.
      + destruct (has_tib A) eqn:Et; [|repeat split; try lia; apply Z.mod_0_l; lia].
        destruct (Htp Et) as (P1 & P2 & P3). clear - Hw0 P1 P2 P3. repeat split; try lia; destruct Hw0 as [E|E]; rewrite E; lia.
    - intros [| | |]; simpl; intros E; try discriminate; assumption.
    - assert (Hs : forall k o o', L k -> 0 <= o < a_area A ->
        0 <= o' < (if a_ret A then 0 else a_w A) ->
        k mod 16 = 0 ->
        k + o <> (if a_ret A then 0 else c_sp c - a_w A) + o').
      { intros k o o' HLk Ho Ho' Hk E. destruct (a_ret A) eqn:Er; [lia|].
        destruct (Hcp Er) as (P1 & P2 & P3 & P4 & _). specialize (P4 k HLk).
        apply P4. destruct Hw0 as [E1|E1]; rewrite E1 in *; lia. }
      assert (Ht : forall k o o', (has_tib A = true -> tib m + 56 <= k \/ k + a_area A <= tib m) ->
        0 <= o < a_area A -> 0 <= o' < (if has_tib A then 56 else 0) ->
        k + o <> (if has_tib A then tib m else 0) + o').
      { intros k o o' Hd Ho Ho'. destruct (has_tib A); [|lia]. specialize (Hd eq_refl). lia. }
      assert (Hu : forall o o', 0 <= o < (if a_ret A then 0 else a_w A) ->
        0 <= o' < (if has_tib A then 56 else 0) ->
        (if a_ret A then 0 else c_sp c - a_w A) + o <> (if has_tib A then tib m else 0) + o').
      { intros o o' Ho Ho' E. destruct (a_ret A) eqn:Er; [lia|]. destruct (has_tib A) eqn:Et; [|lia].
        destruct (Hcp Er) as (P1 & P2 & P3 & _ & P5). specialize (P5 Et).
        destruct (Htp Et) as (_ & _ & P6).
        apply P5. destruct Hw0 as [E1|E1]; rewrite E1 in *; lia. }
      unfold apart in Hap. assert (Lq : L q) by (left; reflexivity). assert (Lh : L h) by (right; reflexivity).
      intros t t' o o' Htt Ho Ho'.
      destruct t, t'; try congruence; simpl in Ho, Ho' |- *;
        first [ clear - Hap Ho Ho'; lia
              | apply Hs; assumption
              | apply not_eq_sym, Hs; assumption
              | apply Ht; assumption
              | apply not_eq_sym, Ht; assumption
              | apply Hu; assumption
              | apply not_eq_sym, Hu; assumption ]. }
  assert (HR : rep (a_w A) (lim_of A) m base (s_init A) m).
  { unfold rep. split; [|split; [|split; [|split; [|split]]]].
    - intros r. unfold s_init; simpl.
      destruct (Nat.eqb_spec r (a_first A)); [subst r; simpl; lia|].
      destruct (Nat.eqb_spec r (a_second A)); [subst r; simpl; lia|].
      unfold tib_ok in Htok. unfold base, has_tib.
      destruct (a_tib A) as [| |tr] eqn:Et; try reflexivity.
      simpl. destruct (Nat.eqb_spec r tr); [subst r|reflexivity]. simpl. lia.
    - intros x. simpl. destruct (fp m x); reflexivity.
    - intros a. symmetry. apply memv_out. intros t o v Hin Ha.
      unfold s_init in Hin; simpl in Hin. apply in_app_or in Hin. destruct Hin as [Hin|Hin].
      + unfold holds in Hho. destruct (a_ret A) eqn:Er; [destruct Hin|].
        destruct Hin as [Hin|[]].
        assert (t = RH /\ o = 0 /\ v = VRoot RS 0) as (-> & -> & ->) by (inversion Hin; auto).
        simpl in Ha |- *. destruct Hho as ((E1 & _) & _). rewrite Ha.
        replace (h + 0) with h by lia. lia.
      + unfold tib_ok in Htok. subst base. unfold has_tib in *.
        destruct (a_tib A) eqn:Et; try (destruct Hin; fail).
        destruct Hin as [Hin|[]].
        assert (t = RT /\ o = 48 /\ v = VRoot RT 0) as (-> & -> & ->) by (inversion Hin; auto).
        simpl in Ha |- *. rewrite Ha. lia.
    - intros t o v Hin. unfold s_init in Hin; simpl in Hin. apply in_app_or in Hin.
      destruct Hin as [Hin|Hin].
      + destruct (a_ret A) eqn:Er; [destruct Hin|]. destruct Hin as [Hin|[]].
        assert (t = RH /\ o = 0) as (-> & ->) by (inversion Hin; auto). exact Hin0.
      + destruct (a_tib A) eqn:Et; try (destruct Hin; fail).
        destruct Hin as [Hin|[]]. assert (t = RT /\ o = 48) as (-> & ->) by (inversion Hin; auto). apply inb_spec. simpl. unfold has_tib.
        rewrite Et. destruct Hw0 as [E|E]; rewrite E; repeat split; try lia; reflexivity.
    - reflexivity.
    - simpl. unfold base. destruct (has_tib A); [reflexivity|lia]. }
  destruct (sexec_sound _ _ _ _ _ Hw0 HL _ _ _ _ HR Ex) as (m' & Erun & HR').
  pose proof HR' as (Hr & Hf & Hm & Hi & Hti & _).
  exists m', (val m base pv).
  assert (Hlook : forall t o, inb (a_w A) (lim_of A) t o = true ->
    mem m' (base t + o) = val m base (mlook (smem s) t o)).
  { intros t o Hin. rewrite Hm. eapply memv_look; eauto. }
  assert (Hframe : forall a, ~ (q <= a < q + a_area A) ->
      (has_tib A = true -> a <> tib m + 8 /\ a <> tib m + 16) -> mem m' a = mem m a).
  { intros a Ha Ha'. rewrite Hm. apply memv_out. intros t o v Hin Eq.
    pose proof (Hst _ Hin) as Hs. pose proof (Hi _ _ _ Hin) as Hb. simpl in Hs.
    apply inb_spec in Hb. destruct t; simpl in Hs.
    - apply andb_true_iff in Hs as (S0 & S3). apply andb_true_iff in S0 as (S1 & S2).
      apply Z.eqb_eq in S1. apply sval_eqb_eq in S2. subst o v.
      unfold holds in Hho. simpl in Eq, Hb |- *. destruct (a_ret A) eqn:Er; [discriminate|].
      destruct Hho as ((E1 & _) & _). subst a. replace (h + 0) with h by (clear; lia). clear - E1. lia.
    - simpl in Eq, Hb. exfalso. clear - Eq Hb Hw0 Ha. destruct Hw0; lia.
    - discriminate.
    - unfold tib_ok in Htok. simpl in Eq, Hb. destruct (has_tib A) eqn:Et; [|clear - Hb Hw0; destruct Hw0; lia].
      specialize (Ha' eq_refl).
      apply orb_true_iff in Hs. destruct Hs as [Hs|Hs].
      + apply orb_true_iff in Hs. rewrite !Z.eqb_eq in Hs. exfalso. clear - Hs Ha' Eq. lia.
      + apply andb_true_iff in Hs as (S0 & S3). apply andb_true_iff in S0 as (S1 & S2).
        apply Z.eqb_eq in S2. apply sval_eqb_eq in S1. subst o v.
        destruct (a_tib A); try discriminate. simpl. subst a. clear - Htok. lia. }
  assert (Hnt : forall k, In k (a_kept A) -> get m k = val m base (s_old k)).
  { intros k Hk. specialize (Hkin k Hk). destruct k; simpl in *; try reflexivity.
    apply inb_spec in Hkin. simpl in Hkin. destruct (has_tib A); [reflexivity|clear - Hkin Hw0; destruct Hw0; lia]. }
  assert (Hnew : forall k, In k (a_kept A) -> get m' k = val m base (s_new s k)).
  { intros k Hk. specialize (Hkin k Hk). destruct k; simpl in *.
    - apply Hr.
    - rewrite Hf. reflexivity.
    - rewrite Hf. reflexivity.
    - rewrite <- (Hlook RT o Hkin). simpl. rewrite Hti.
      apply inb_spec in Hkin. simpl in Hkin. destruct (has_tib A); [reflexivity|clear - Hkin Hw0; destruct Hw0; lia]. }
  assert (Hpair : forall k o, In (k, o) (combine (a_kept A) offs) ->
    s_new s k = VMem RH o /\ mlook (smem s) RP o = s_old k).
  { intros k o Hin. specialize (Hcomb _ Hin). simpl in Hcomb.
    apply andb_true_iff in Hcomb as (C1 & C2).
    apply sval_eqb_eq in C1. apply sval_eqb_eq in C2. auto. }
  split; [rewrite HS; exact Erun|].
  assert (Hv1 : map (get m') (a_kept A) = c_vals c).
  { destruct Hho as (_ & Hv). rewrite <- Hv. apply map_combine_ext; [exact Hlen|].
    intros k o Hin. destruct (Hpair _ _ Hin) as (C1 & _).
    rewrite (Hnew k); [|eapply in_combine_l; exact Hin]. rewrite C1. reflexivity. }
  assert (Hv2 : map (fun o => mem m' (q + o)) offs = map (get m) (a_kept A)).
  { symmetry. apply map_combine_ext; [exact Hlen|].
    intros k o Hin. destruct (Hpair _ _ Hin) as (_ & C2).
    rewrite (Hnt k); [|eapply in_combine_l; exact Hin].
    pose proof (Hlook RP o) as Hlo. simpl in Hlo. rewrite Hlo, C2; [reflexivity|].
    apply Hoffs. eapply in_combine_r; exact Hin. }
  assert (Hq0 : mem m' q = val m base (mlook (smem s) RP 0)).
  { rewrite <- (Hlook RP 0 Hin0). simpl. f_equal. clear. lia. }
  assert (Hq8 : mem m' (q + 8) = val m base (mlook (smem s) RP 8)) by exact (Hlook RP 8 Hin8).
  destruct (a_ret A) as [r|] eqn:Er;
    repeat (apply andb_true_iff in Hret; destruct Hret as (Hret & ?));
    repeat match goal with H : sval_eqb _ _ = true |- _ => apply sval_eqb_eq in H end.
  - split; [|split; [exact Hti|split; [|exact Hframe]]].
    + unfold resumed. destruct Hho as (Hh & _). unfold holds in Hh. rewrite Er in Hh. destruct Hh as (E1 & E2).
      split; [|split; [|exact Hv1]].
      * rewrite Hret. simpl. exact E2.
      * rewrite Hr, H1. simpl. replace (h + 0) with h by (clear; lia). exact E1.
    + unfold holds. rewrite Er. unfold ctx_of. rewrite Er. simpl. split; [|exact Hv2].
      rewrite Hq0, Hq8, H0, H. simpl. auto.
  - split; [|split; [exact Hti|split; [|exact Hframe]]].
    + unfold resumed. destruct Hho as (Hh & _). unfold holds in Hh. rewrite Er in Hh. destruct Hh as (E1 & E2).
      split; [|split; [|exact Hv1]].
      * rewrite Hret. simpl. replace (c_sp c - a_w A + 0) with (c_sp c - a_w A) by (clear; lia). exact E2.
      * rewrite Hr, H0. simpl. clear. lia.
    + unfold holds. rewrite Er. specialize (Hcp0 eq_refl). unfold ctx_of in *. rewrite Er in *. simpl in *.
      destruct (Hcp0 Er) as (_ & _ & _ & P4 & P5). simpl in P4, P5.
      split; [|exact Hv2]. replace (reg m (a_sp A) + a_w A - a_w A) with (reg m (a_sp A)) in * by (clear; lia).
      split.
      * rewrite Hq0, H. reflexivity.
      * apply Hframe; [apply P4; left; reflexivity|]. intros Et. specialize (P5 Et). clear - P5. lia.
Qed.
