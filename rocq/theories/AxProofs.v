(* Symbolic execution of instruction lists, with its soundness: used to read
   off what the tables of the context switch do. *)
From Coq Require Import ZArith List Bool Lia.
From Verif Require Import Base AxModel.
Import ListNotations.
Open Scope Z_scope.

(* Regions of memory: the register area of the task resumed, of the task
   saved, the stack of the task resumed, the thread information block. *)
Inductive root := RH | RP | RS | RT.

Inductive sval :=
| VReg (r : nat)          (* the register before *)
| VFpL (x : nat) | VFpH (x : nat)
| VMem (t : root) (o : Z) (* the word before *)
| VRoot (t : root) (o : Z) (* an address *)
| VZero.

Definition root_eqb (a b : root) : bool :=
  match a, b with RH, RH | RP, RP | RS, RS | RT, RT => true | _, _ => false end.

Lemma root_eqb_spec a b : root_eqb a b = true <-> a = b.
Proof. destruct a, b; simpl; split; congruence. Qed.

Record sst := mkS { sreg : list (nat * sval); sfp : list (nat * (sval * sval));
                    smem : list (root * Z * sval) }.

Fixpoint rlook (l : list (nat * sval)) (r : nat) : sval :=
  match l with
  | [] => VReg r
  | (r', v) :: t => if Nat.eqb r r' then v else rlook t r
  end.
Fixpoint flook (l : list (nat * (sval * sval))) (r : nat) : sval * sval :=
  match l with
  | [] => (VFpL r, VFpH r)
  | (r', v) :: t => if Nat.eqb r r' then v else flook t r
  end.
Fixpoint mlook (l : list (root * Z * sval)) (t : root) (o : Z) : sval :=
  match l with
  | [] => VMem t o
  | (t', o', v) :: r => if root_eqb t t' && (o =? o') then v else mlook r t o
  end.

Definition inb (w : Z) (lim : root -> Z) (t : root) (o : Z) : bool :=
  (0 <=? o) && (o + w <=? lim t) && (o mod w =? 0).

Definition sptr (w : Z) (lim : root -> Z) (s : sst) (b : nat) (d : Z) : option (root * Z) :=
  match rlook (sreg s) b with
  | VRoot t o => if inb w lim t (o + d) then Some (t, o + d) else None
  | _ => None
  end.

Definition rput (s : sst) r v := mkS ((r, v) :: sreg s) (sfp s) (smem s).
Definition fput (s : sst) r v := mkS (sreg s) ((r, v) :: sfp s) (smem s).
Definition mput (s : sst) t o v := mkS (sreg s) (sfp s) ((t, o, v) :: smem s).

(* Roots whose base is a multiple of 16: the two register areas. *)
Definition al16 (t : root) : bool := match t with RH | RP => true | _ => false end.

Definition sstep (w : Z) (lim : root -> Z) (i : ins) (s : sst) : option sst :=
  match i with
  | IStore b d r =>
    match sptr w lim s b d with
    | Some (t, o) => Some (mput s t o (rlook (sreg s) r))
    | None => None
    end
  | ILoad r b d =>
    match sptr w lim s b d with
    | Some (t, o) => Some (rput s r (mlook (smem s) t o))
    | None => None
    end
  | IPop r q =>
    match sptr w lim s q 0 with
    | Some (t, o) =>
      Some (rput (rput s q (VRoot t (o + w))) r (mlook (smem s) t o))
    | None => None
    end
  | ISub r imm =>
    match rlook (sreg s) r with
    | VRoot t o =>
      if (0 <=? o - imm) && (o - imm <=? lim t) then Some (rput s r (VRoot t (o - imm)))
      else None
    | _ => None
    end
  | IMov r q => Some (rput s r (rlook (sreg s) q))
  | IStoreX al b d x =>
    match sptr w lim s b d with
    | Some (t, o) =>
      if inb w lim t (o + 8) && (negb al || (al16 t && (o mod 16 =? 0))) then
        let '(lo, hi) := flook (sfp s) x in
        Some (mput (mput s t o lo) t (o + 8) hi)
      else None
    | None => None
    end
  | ILoadX al x b d =>
    match sptr w lim s b d with
    | Some (t, o) =>
      if inb w lim t (o + 8) && (negb al || (al16 t && (o mod 16 =? 0))) then
        Some (fput s x (mlook (smem s) t o, mlook (smem s) t (o + 8)))
      else None
    | None => None
    end
  | IStoreD b d x =>
    match sptr w lim s b d with
    | Some (t, o) => Some (mput s t o (fst (flook (sfp s) x)))
    | None => None
    end
  | ILoadD x b d =>
    match sptr w lim s b d with
    | Some (t, o) => Some (fput s x (mlook (smem s) t o, VZero))
    | None => None
    end
  | ILoadT r d =>
    if inb w lim RT d then Some (rput s r (mlook (smem s) RT d)) else None
  | IJmp _ => None
  end.

Fixpoint sexec (w : Z) (lim : root -> Z) (p : list ins) (s : sst) : option (sst * sval) :=
  match p with
  | [] => None
  | IJmp r :: _ => Some (s, rlook (sreg s) r)
  | i :: t =>
    match sstep w lim i s with
    | Some s1 => sexec w lim t s1
    | None => None
    end
  end.

(* ---- meaning ---- *)

Definition val (m0 : mach) (base : root -> Z) (v : sval) : Z :=
  match v with
  | VReg r => reg m0 r
  | VFpL x => fst (fp m0 x)
  | VFpH x => snd (fp m0 x)
  | VMem t o => mem m0 (base t + o)
  | VRoot t o => base t + o
  | VZero => 0
  end.

Fixpoint memv (m0 : mach) (base : root -> Z) (l : list (root * Z * sval)) (a : Z) : Z :=
  match l with
  | [] => mem m0 a
  | (t, o, v) :: r => if a =? base t + o then val m0 base v else memv m0 base r a
  end.

Definition laid (w : Z) (lim base : root -> Z) : Prop :=
  (forall t, 0 <= base t /\ 0 <= lim t /\ base t + lim t < top_of w /\ base t mod w = 0) /\
  (forall t, al16 t = true -> base t mod 16 = 0) /\
  (forall t t' o o', t <> t' -> 0 <= o < lim t -> 0 <= o' < lim t' -> base t + o <> base t' + o').

Definition rep (w : Z) (lim : root -> Z) (m0 : mach) (base : root -> Z) (s : sst) (m : mach) : Prop :=
  (forall r, reg m r = val m0 base (rlook (sreg s) r)) /\
  (forall x, fp m x = (val m0 base (fst (flook (sfp s) x)), val m0 base (snd (flook (sfp s) x)))) /\
  (forall a, mem m a = memv m0 base (smem s) a) /\
  (forall t o v, In (t, o, v) (smem s) -> inb w lim t o = true) /\
  tib m = tib m0 /\ (0 < lim RT -> tib m0 = base RT).

Lemma inb_spec w lim t o : inb w lim t o = true <-> 0 <= o /\ o + w <= lim t /\ o mod w = 0.
Proof.
  unfold inb. rewrite !andb_true_iff, !Z.leb_le, Z.eqb_eq. tauto.
Qed.

Lemma memv_look w lim base m0 l t o : (w = 4 \/ w = 8) -> laid w lim base ->
  (forall t o v, In (t, o, v) l -> inb w lim t o = true) -> inb w lim t o = true ->
  memv m0 base l (base t + o) = val m0 base (mlook l t o).
Proof.
  intros Hw (_ & _ & Hd) Hall Hin. induction l as [|[[t' o'] v] r IH]; simpl.
  - reflexivity.
  - pose proof (Hall t' o' v (or_introl eq_refl)) as Hb.
    assert (Hr : forall t o v, In (t, o, v) r -> inb w lim t o = true).
    { intros; eapply Hall; right; eauto. }
    specialize (IH Hr).
    apply inb_spec in Hb. apply inb_spec in Hin.
    destruct (root_eqb t t') eqn:Et; simpl.
    + apply root_eqb_spec in Et. subst t'.
      destruct (o =? o') eqn:Eo; [apply Z.eqb_eq in Eo; subst; rewrite Z.eqb_refl; reflexivity|].
      apply Z.eqb_neq in Eo. destruct (Z.eqb_spec (base t + o) (base t + o')); [lia|]. exact IH.
    + assert (t <> t') by (intros ->; destruct t'; discriminate).
      destruct (Z.eqb_spec (base t + o) (base t' + o')) as [E|]; [|exact IH].
      exfalso. eapply (Hd t t' o o'); [assumption| | |exact E]; destruct Hw; lia.
Qed.

Lemma rep_ptr w lim base m0 s m b d t o : (w = 4 \/ w = 8) -> laid w lim base ->
  rep w lim m0 base s m -> sptr w lim s b d = Some (t, o) ->
  addr w m b d = base t + o /\ inb w lim t o = true /\ (base t + o) mod w = 0.
Proof.
  intros Hw (Hb & _) (Hr & _) E. unfold sptr in E. unfold addr. rewrite Hr.
  destruct (rlook (sreg s) b); try discriminate. simpl.
  destruct (inb w lim t0 (o0 + d)) eqn:Ei; [|discriminate]. inversion E; subst; clear E.
  split; [|split; [exact Ei|]].
  - apply inb_spec in Ei. destruct (Hb t) as (? & ? & ? & ?).
    rewrite Z.mod_small; [lia|]. destruct Hw; subst; lia.
  - apply inb_spec in Ei. destruct (Hb t) as (? & ? & ? & Hm).
    rewrite Z.add_mod by (destruct Hw; lia). rewrite Hm. destruct Ei as (_ & _ & ->).
    destruct Hw; subst; reflexivity.
Qed.

Lemma rep_rput w lim base m0 s m r x v : rep w lim m0 base s m -> val m0 base v = x ->
  rep w lim m0 base (rput s r v) (with_reg m r x).
Proof.
  intros (Hr & Hf & Hm & Hi & Ht & Hu) Hv. unfold rep, rput, with_reg; simpl.
  repeat match goal with |- _ /\ _ => split end; try assumption.
  intros q. unfold rset. destruct (Nat.eqb q r); [symmetry; exact Hv|apply Hr].
Qed.

Lemma rep_fput w lim base m0 s m r x v v' : rep w lim m0 base s m ->
  x = (val m0 base v, val m0 base v') ->
  rep w lim m0 base (fput s r (v, v')) (with_fp m r x).
Proof.
  intros (Hr & Hf & Hm & Hi & Ht & Hu) Hv. unfold rep, fput, with_fp; simpl.
  repeat match goal with |- _ /\ _ => split end; try assumption.
  intros q. unfold fset. destruct (Nat.eqb q r); [exact Hv|apply Hf].
Qed.

Lemma rep_mput w lim base m0 s m t o x v : rep w lim m0 base s m ->
  inb w lim t o = true -> val m0 base v = x ->
  rep w lim m0 base (mput s t o v) (with_mem m (base t + o) x).
Proof.
  intros (Hr & Hf & Hm & Hi & Ht & Hu) Hb Hv. unfold rep, mput, with_mem; simpl.
  repeat match goal with |- _ /\ _ => split end; try assumption.
  - intros a. unfold mset. destruct (a =? base t + o); [symmetry; exact Hv|apply Hm].
  - intros t1 o1 v1 [E|Hin]; [inversion E; subst; exact Hb|eapply Hi; exact Hin].
Qed.

Lemma rep_ld w lim base m0 s m t o : (w = 4 \/ w = 8) -> laid w lim base ->
  rep w lim m0 base s m -> inb w lim t o = true -> (base t + o) mod w = 0 ->
  ld w m (base t + o) = Ok (val m0 base (mlook (smem s) t o)).
Proof.
  intros Hw HL (Hr & Hf & Hm & Hi & Ht & Hu) Hb Ha. unfold ld. rewrite Ha. simpl.
  rewrite Hm. f_equal. eapply memv_look; eauto.
Qed.

Lemma inb_next w lim base t o : (w = 4 \/ w = 8) -> laid w lim base ->
  inb w lim t (o + 8) = true -> (base t + o) mod w = 0 -> 0 <= o ->
  (base t + o + 8) mod top_of w = base t + (o + 8) /\ (base t + (o + 8)) mod w = 0.
Proof.
  intros Hw (Hb & _) Hi Ha Ho. apply inb_spec in Hi. destruct (Hb t) as (? & ? & ? & ?).
  split.
  - rewrite Z.mod_small; [lia|]. destruct Hw; lia.
  - destruct Hw; subst; lia.
Qed.

Lemma al_ok w lim base t o al : laid w lim base ->
  (negb al || (al16 t && (o mod 16 =? 0))) = true ->
  (al && negb ((base t + o) mod 16 =? 0)) = false.
Proof.
  intros (_ & Ha & _) H. destruct al; [|reflexivity]. simpl in *.
  apply andb_true_iff in H as (H1 & H2). apply Z.eqb_eq in H2. specialize (Ha t H1).
  assert ((base t + o) mod 16 = 0) as -> by lia. reflexivity.
Qed.

Lemma sstep_sound w lim base m0 i s m s1 : (w = 4 \/ w = 8) -> laid w lim base ->
  rep w lim m0 base s m -> sstep w lim i s = Some s1 ->
  exists m1, step w i m = Ok m1 /\ rep w lim m0 base s1 m1.
Proof.
  intros Hw HL HR E. pose proof HR as (Hr & Hf & Hm & Hi & Ht & Hu).
  destruct i; simpl in E.
  - destruct (sptr w lim s b d) as [[t o]|] eqn:Ep; [|discriminate]. inversion E; subst; clear E.
    destruct (rep_ptr _ _ _ _ _ _ _ _ _ _ Hw HL HR Ep) as (Ea & Eb & Ec).
    unfold step. rewrite Ea. unfold st. rewrite Ec. simpl.
    eexists; split; [reflexivity|]. apply rep_mput; [exact HR|exact Eb|symmetry; apply Hr].
  - destruct (sptr w lim s b d) as [[t o]|] eqn:Ep; [|discriminate]. inversion E; subst; clear E.
    destruct (rep_ptr _ _ _ _ _ _ _ _ _ _ Hw HL HR Ep) as (Ea & Eb & Ec).
    unfold step. rewrite Ea, (rep_ld _ _ _ _ _ _ _ _ Hw HL HR Eb Ec). cbn [bind].
    eexists; split; [reflexivity|]. apply rep_rput; [exact HR|reflexivity].
  - destruct (sptr w lim s s0 0) as [[t o]|] eqn:Ep; [|discriminate]. inversion E; subst; clear E.
    destruct (rep_ptr _ _ _ _ _ _ _ _ _ _ Hw HL HR Ep) as (Ea & Eb & Ec).
    unfold step. rewrite Ea, (rep_ld _ _ _ _ _ _ _ _ Hw HL HR Eb Ec). cbn [bind].
    eexists; split; [reflexivity|].
    apply rep_rput; [|reflexivity]. apply rep_rput; [exact HR|].
    unfold sptr in Ep. rewrite Hr. destruct (rlook (sreg s) s0); try discriminate.
    destruct (inb w lim t0 (o0 + 0)); [|discriminate]. inversion Ep; subst; clear Ep.
    simpl. apply inb_spec in Eb. destruct HL as (Hb & _). destruct (Hb t) as (? & ? & ? & ?).
    rewrite Z.mod_small; [lia|]. destruct Hw; lia.
  - destruct (rlook (sreg s) r) eqn:Er; try discriminate.
    destruct ((0 <=? o - imm) && (o - imm <=? lim t)) eqn:Eb; [|discriminate].
    inversion E; subst; clear E. apply andb_true_iff in Eb as (E1 & E2).
    apply Z.leb_le in E1. apply Z.leb_le in E2.
    unfold step. eexists; split; [reflexivity|]. apply rep_rput; [exact HR|].
    rewrite Hr, Er. simpl. destruct HL as (Hb & _). destruct (Hb t) as (? & ? & ? & ?).
    rewrite Z.mod_small; lia.
  - inversion E; subst; clear E. unfold step. eexists; split; [reflexivity|].
    apply rep_rput; [exact HR|symmetry; apply Hr].
  - destruct (sptr w lim s b d) as [[t o]|] eqn:Ep; [|discriminate].
    destruct (inb w lim t (o + 8) && (negb al || (al16 t && (o mod 16 =? 0)))) eqn:Eg; [|discriminate].
    apply andb_true_iff in Eg as (Eg1 & Eg2).
    destruct (flook (sfp s) x) as [lo hi] eqn:Ef. inversion E; subst; clear E.
    destruct (rep_ptr _ _ _ _ _ _ _ _ _ _ Hw HL HR Ep) as (Ea & Eb & Ec).
    unfold step. cbv zeta. rewrite Ea, (al_ok _ _ _ _ _ _ HL Eg2). unfold st. rewrite Ec. simpl Z.eqb.
    cbv iota. cbn [bind].
    pose proof Eb as Eb'. apply inb_spec in Eb'.
    destruct (inb_next _ _ _ _ _ Hw HL Eg1 Ec ltac:(lia)) as (En & Em).
    rewrite En, Em. simpl Z.eqb. cbv iota.
    eexists; split; [reflexivity|]. specialize (Hf x). rewrite Ef in Hf. simpl in Hf.
    rewrite Hf. simpl.
    apply rep_mput; [|exact Eg1|reflexivity]. apply rep_mput; [exact HR|exact Eb|reflexivity].
  - destruct (sptr w lim s b d) as [[t o]|] eqn:Ep; [|discriminate].
    destruct (inb w lim t (o + 8) && (negb al || (al16 t && (o mod 16 =? 0)))) eqn:Eg; [|discriminate].
    apply andb_true_iff in Eg as (Eg1 & Eg2). inversion E; subst; clear E.
    destruct (rep_ptr _ _ _ _ _ _ _ _ _ _ Hw HL HR Ep) as (Ea & Eb & Ec).
    pose proof Eb as Eb'. apply inb_spec in Eb'.
    destruct (inb_next _ _ _ _ _ Hw HL Eg1 Ec ltac:(lia)) as (En & Em).
    unfold step. cbv zeta. rewrite Ea, (al_ok _ _ _ _ _ _ HL Eg2).
    rewrite (rep_ld _ _ _ _ _ _ _ _ Hw HL HR Eb Ec). cbn [bind].
    rewrite En, (rep_ld _ _ _ _ _ _ _ _ Hw HL HR Eg1 Em). cbn [bind].
    eexists; split; [reflexivity|]. apply rep_fput; [exact HR|reflexivity].
  - destruct (sptr w lim s b d) as [[t o]|] eqn:Ep; [|discriminate]. inversion E; subst; clear E.
    destruct (rep_ptr _ _ _ _ _ _ _ _ _ _ Hw HL HR Ep) as (Ea & Eb & Ec).
    unfold step. rewrite Ea. unfold st. rewrite Ec. simpl.
    eexists; split; [reflexivity|]. apply rep_mput; [exact HR|exact Eb|].
    rewrite Hf. reflexivity.
  - destruct (sptr w lim s b d) as [[t o]|] eqn:Ep; [|discriminate]. inversion E; subst; clear E.
    destruct (rep_ptr _ _ _ _ _ _ _ _ _ _ Hw HL HR Ep) as (Ea & Eb & Ec).
    unfold step. rewrite Ea, (rep_ld _ _ _ _ _ _ _ _ Hw HL HR Eb Ec). cbn [bind].
    eexists; split; [reflexivity|]. apply rep_fput; [exact HR|reflexivity].
  - destruct (inb w lim RT d) eqn:Ei; [|discriminate]. inversion E; subst; clear E.
    pose proof Ei as Ei'. apply inb_spec in Ei'. pose proof HL as (Hb & _).
    destruct (Hb RT) as (? & ? & ? & ?).
    unfold step. rewrite Ht, Hu by (destruct Hw; lia). rewrite Z.mod_small by (destruct Hw; lia).
    assert (Ea : (base RT + d) mod w = 0) by (destruct Hw; subst; lia).
    rewrite (rep_ld _ _ _ _ _ _ _ _ Hw HL HR Ei Ea). cbn [bind].
    eexists; split; [reflexivity|]. apply rep_rput; [exact HR|reflexivity].
  - discriminate.
Qed.

Lemma sexec_sound w lim base m0 p : (w = 4 \/ w = 8) -> laid w lim base ->
  forall s m sf pv, rep w lim m0 base s m -> sexec w lim p s = Some (sf, pv) ->
  exists mf, exec w p m = Ok (mf, val m0 base pv) /\ rep w lim m0 base sf mf.
Proof.
  intros Hw HL. induction p as [|i t IH]; intros s m sf pv HR E; [discriminate|].
  destruct i;
    try (cbn [sexec] in E; cbn [exec];
         destruct (sstep w lim _ s) as [s1|] eqn:Es; [|discriminate];
         destruct (sstep_sound _ _ _ _ _ _ _ _ Hw HL HR Es) as (m1 & E1 & R1);
         rewrite E1; cbn [bind]; eapply IH; eassumption).
  simpl in E. inversion E; subst; clear E. simpl. exists m. split; [|exact HR].
  f_equal. f_equal. apply HR.
Qed.

(* What a finished symbolic state says of memory outside the words stored. *)
Lemma memv_out m0 base l a :
  (forall t o v, In (t, o, v) l -> a = base t + o -> val m0 base v = mem m0 a) ->
  memv m0 base l a = mem m0 a.
Proof.
  induction l as [|[[t o] v] r IH]; intros H; simpl; [reflexivity|].
  destruct (Z.eqb_spec a (base t + o)); [eapply H; [left; reflexivity|assumption]|].
  apply IH. intros t1 o1 v1 Hin Ha. apply (H t1 o1 v1); [right; exact Hin|exact Ha].
Qed.
