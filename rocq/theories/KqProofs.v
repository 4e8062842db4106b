From Verif Require Import Base DllModel DllProofs KqModel.
Local Open Scope Z_scope.

(* ---- what a program asks for, written without the library's tables ---- *)
Record kspec := {
  want : nat -> option Z;        (* the interest last asked for, of registered descriptors *)
  isopen : nat -> bool;
  used : nat -> bool;            (* registered at some time since it was opened *)
  told : list kdeliv }.
Definition kspec0 : kspec := {| want := fun _ => None; isopen := fun _ => false; used := fun _ => false; told := [] |}.

(* what a callback is told about an event: reading (-1) or writing (-2), and whether the peer has gone *)
Definition tells (flt : Z) (eof : bool) : Z :=
  match flt =? -1, eof with true, _ => 1 | false, false => 2 | false, true => 0 end.

Definition kspec_step (p : kspec) (o : kop) : kspec :=
  match o with
  | KAdd f e => {| want := upd (want p) f (Some e); isopen := isopen p; used := upd (used p) f true; told := told p |}
  | KDel f => {| want := upd (want p) f None; isopen := isopen p; used := used p; told := told p |}
  | KSet f e => {| want := upd (want p) f (Some e); isopen := isopen p; used := used p; told := told p |}
  | KPoll => p
  | KEvent f flt eof =>
    match want p f with
    | Some _ => {| want := want p; isopen := isopen p; used := used p; told := told p ++ [KCall f (tells flt eof)] |}
    | None => p
    end
  | KOpen f => {| want := want p; isopen := upd (isopen p) f true; used := upd (used p) f false; told := told p |}
  | KClose f => {| want := want p; isopen := upd (isopen p) f false; used := used p; told := told p |}
  end.

(* the rules: one direction at a time, a descriptor is open and new when registered, and is
   deregistered before it is closed *)
Definition kobeys1 (maxfd : nat) (p : kspec) (o : kop) : Prop :=
  match o with
  | KAdd f e => (f < maxfd)%nat /\ (e = 1 \/ e = 2) /\ isopen p f = true /\ used p f = false
  | KDel f => (f < maxfd)%nat
  | KSet f e => (f < maxfd)%nat /\ (e = 0 \/ e = 1 \/ e = 2) /\ want p f <> None
  | KPoll => True
  | KEvent f flt eof => (f < maxfd)%nat /\ (flt = -1 \/ flt = -2)
  | KOpen f => isopen p f = false
  | KClose f => want p f = None
  end.
Fixpoint kobeys (maxfd : nat) (p : kspec) (l : list kop) : Prop :=
  match l with [] => True | o :: r => kobeys1 maxfd p o /\ kobeys maxfd (kspec_step p o) r end.
Definition kspec_run (l : list kop) : kspec := fold_left kspec_step l kspec0.

(* ---- the packed link word ---- *)
Lemma lor_shift n e : 0 <= e < 256 -> Z.lor (Z.shiftl n 8) e = n * 256 + e.
Proof.
  intros H. assert (L : Z.land (Z.shiftl n 8) e = 0).
  { apply Z.bits_inj'. intros i Hi. rewrite Z.land_spec, Z.bits_0.
    destruct (Z.lt_ge_cases i 8).
    - rewrite Z.shiftl_spec_low; auto.
    - rewrite (Z.bits_above_log2 e i); [apply andb_false_r|lia|].
      destruct (Z.eq_dec e 0) as [->|]; [cbn; lia|]. apply Z.log2_lt_pow2; [lia|].
      apply Z.lt_le_trans with (2 ^ 8); [lia|]. apply Z.pow_le_mono_r; lia. }
  rewrite <- Z.lxor_lor by auto. rewrite <- Z.add_nocarry_lxor by auto. rewrite Z.shiftl_mul_pow2 by lia. reflexivity.
Qed.

Lemma small_land e : 0 <= e < 256 -> Z.land e 255 = e.
Proof. intros H. change 255 with (Z.ones 8). rewrite Z.land_ones by lia. apply Z.mod_small. lia. Qed.

Lemma build_get n e : -1 <= n < 2 ^ 23 -> 0 <= e < 256 ->
  BACKEND_GET_NEXT_FD (BACKEND_BUILD n e) = n /\ BACKEND_GET_OLD_EVENTS (BACKEND_BUILD n e) = e /\ 0 <= BACKEND_BUILD n e.
Proof.
  intros Hn He. unfold BACKEND_GET_NEXT_FD, BACKEND_GET_OLD_EVENTS, BACKEND_BUILD.
  rewrite small_land, lor_shift by auto.
  assert (E : int32 (wrap32 (n * 256 + e)) = n * 256 + e).
  { unfold int32, wrap32. rewrite Zmod_mod. cbn zeta. change (2 ^ 32) with 4294967296. change (2 ^ 31) with 2147483648. change (2 ^ 23) with 8388608 in Hn.
    destruct (Z.ltb_spec ((n * 256 + e) mod 4294967296) 2147483648); lia. }
  rewrite E. repeat split.
  - rewrite Z.shiftr_div_pow2 by lia. change (2 ^ 8) with 256. lia.
  - rewrite <- lor_shift by auto. rewrite Z.land_lor_distr_l, (small_land e) by auto.
    replace (Z.land (Z.shiftl n 8) 255) with 0; [reflexivity|]. change 255 with (Z.ones 8). rewrite Z.land_ones by lia.
    rewrite Z.shiftl_mul_pow2 by lia. now rewrite Z_mod_mult.
  - unfold wrap32. change (2 ^ 32) with 4294967296. lia.
Qed.

(* ---- submitting changes that all succeed ---- *)
Fixpoint sub (op : nat -> bool) (k : nat -> Z -> option bool) (l : list change) :=
  match l with [] => Some k | c :: r => match kchange op k c with Some k' => sub op k' r | None => None end end.
Lemma sub_app op l1 : forall k l2, sub op k (l1 ++ l2) = match sub op k l1 with Some k' => sub op k' l2 | None => None end.
Proof. induction l1 as [|c r IH]; intros k l2; cbn [sub app]; auto. destruct (kchange op k c); auto. Qed.
Lemma sub_stop op l : forall k k', sub op k l = Some k' -> kevent_stop op k l = k' /\ kevent_all op k l = k'.
Proof.
  induction l as [|c r IH]; intros k k'; cbn [sub kevent_stop kevent_all]; intros H.
  - now injection H as <-.
  - destruct (kchange op k c); [auto|discriminate].
Qed.

(* ---- the invariant ---- *)
Definition dir (e : Z) : Prop := e = 0 \/ e = 1 \/ e = 2.
(* the kernel watches one descriptor for exactly the interest e *)
Definition watches (k : Z -> option bool) (e : Z) : Prop :=
  forall flt, k flt = Some true <-> (e = 1 /\ flt = -1) \/ (e = 2 /\ flt = -2).

Fixpoint chain (back : nat -> Z) (c : Z) (L : list nat) : Prop :=
  match L with
  | [] => c = -1
  | f :: r => c = Z.of_nat f /\ 0 <= back f /\ dir (BACKEND_GET_OLD_EVENTS (back f)) /\ chain back (BACKEND_GET_NEXT_FD (back f)) r
  end.
Definition old_of (s : kq) (L : list nat) (f : nat) : Z :=
  if in_dec Nat.eq_dec f L then BACKEND_GET_OLD_EVENTS (kback s f) else kev s f.

Record KReg (maxfd : nat) (s : kq) (p : kspec) (L : list nat) : Prop := {
  ki_chain : chain (kback s) (changed s) L;
  ki_nd : NoDup L;
  ki_in : forall f, In f L -> (f < maxfd)%nat /\ want p f <> None;
  ki_reg : forall f, kreg s f = match want p f with Some _ => true | None => false end;
  ki_ev : forall f e, want p f = Some e -> kev s f = e /\ dir e /\ kpath s f = false /\ isopen p f = true /\ used p f = true;
  ki_out : forall f, want p f <> None -> In f L \/ kback s f = -1;
  ki_open : forall f, opened s f = isopen p f;
  ki_log : klog s = told p }.
Definition KAgree (s : kq) (k : nat -> Z -> option bool) (p : kspec) (L : list nat) : Prop :=
  (forall f, want p f <> None -> watches (k f) (old_of s L f)) /\
  (forall f flt, isopen p f = true -> used p f = false -> k f flt = None) /\
  (forall f flt, isopen p f = false -> k f flt = None).
Definition KInv maxfd s p L := KReg maxfd s p L /\ KAgree s (kern s) p L.

Lemma chain_ext b1 b2 L : forall c, (forall f, In f L -> b1 f = b2 f) -> chain b1 c L -> chain b2 c L.
Proof.
  induction L as [|f r IH]; intros c H; cbn [chain]; auto.
  rewrite (H f (or_introl eq_refl)). intros (A & B & C & D). repeat split; auto. apply IH; auto. intros; apply H; right; auto.
Qed.

Lemma filter_cases e : dir e -> (e = 0 \/ (e = 1 /\ filter_of e = -1) \/ (e = 2 /\ filter_of e = -2)).
Proof. intros [-> | [-> | ->]]; auto. Qed.

Lemma agree_upd_ne k f flt v g : g <> f -> forall x, updk k f flt v g x = k g x.
Proof. intros H x. unfold updk. destruct (Nat.eqb_spec g f); [contradiction|reflexivity]. Qed.
Lemma updk_same k f flt v x : updk k f flt v f x = if x =? flt then v else k f x.
Proof. unfold updk. rewrite Nat.eqb_refl. reflexivity. Qed.

(* one entry moves the kernel from the old to the new interest of its descriptor *)
Lemma apply_one_ok maxfd s p f L cl k :
  KReg maxfd s p (f :: L) -> sub (opened s) (kern s) cl = Some k -> KAgree s k p (f :: L) -> (length cl <= 254)%nat ->
  exists s' cl' k', apply_one s cl = Ok (s', cl') /\ KReg maxfd s' p L /\ sub (opened s') (kern s') cl' = Some k' /\
    KAgree s' k' p L /\ (length cl' <= 254)%nat /\ opened s' = opened s.
Proof.
  intros R Hs A Hl. pose proof R as [Ch Nd Hin Hr He Ho Hop Hlog].
  cbn [chain] in Ch. destruct Ch as (Ec & Hb & Hd & Ch).
  inversion Nd as [|? ? Hnf Nd']; subst.
  destruct (Hin f (or_introl eq_refl)) as [Hf Hw]. destruct (want p f) as [e|] eqn:Ew; [|congruence].
  destruct (He f e Ew) as (E1 & De & Pf & Of & Uf).
  assert (Fo : Z.to_nat (changed s) = f) by lia.
  set (old := BACKEND_GET_OLD_EVENTS (kback s f)) in *.
  destruct A as (A1 & A2 & A3).
  assert (Wold : watches (k f) old).
  { specialize (A1 f). rewrite Ew in A1. unfold old_of in A1. destruct (in_dec Nat.eq_dec f (f :: L)) as [|N]; [apply A1; congruence|exfalso; apply N; left; auto]. }
  assert (Opf : opened s f = true) by (rewrite Hop; auto).
  (* the changes sent and the kernel after them *)
  assert (G : exists ds k2, sub (opened s) k ds = Some k2 /\ (length ds <= 2)%nat /\ watches (k2 f) e /\
    (forall g x, g <> f -> k2 g x = k g x) /\
    (if e =? old then ds = [] else
     ds = (if old =? 0 then [] else [CDisable f (filter_of old)]) ++ (if e =? 0 then [] else [CAdd f (filter_of e)]))).
  { destruct (Z.eqb_spec e old) as [Eo|Eo].
    - exists [], k. rewrite Eo. cbn. repeat split; auto; try lia; apply Wold.
    - set (ds1 := if old =? 0 then [] else [CDisable f (filter_of old)]).
      assert (G1 : exists k1, sub (opened s) k ds1 = Some k1 /\ (length ds1 <= 1)%nat /\ (forall x, k1 f x <> Some true) /\
        (forall g x, g <> f -> k1 g x = k g x)).
      { unfold ds1. destruct (Z.eqb_spec old 0) as [Z0|N0].
        - exists k. repeat split; cbn; auto. intros x Hx. apply Wold in Hx. lia.
        - destruct (filter_cases old Hd) as [|Fc]; [contradiction|].
          assert (Kt : k f (filter_of old) = Some true) by (apply Wold; destruct Fc as [[-> ->] | [-> ->]]; auto).
          cbn [sub kchange]. rewrite Opf, Kt. eexists. split; [reflexivity|]. split; [cbn; auto|]. split.
          + intros x. rewrite updk_same. destruct (Z.eqb_spec x (filter_of old)) as [|Nx]; [congruence|].
            intros Hx. apply Wold in Hx. destruct Fc as [[-> F1] | [-> F1]]; rewrite F1 in Nx; lia.
          + intros g x Hg. now rewrite agree_upd_ne. }
      destruct G1 as (k1 & S1 & L1 & N1 & O1).
      destruct (Z.eqb_spec e 0) as [Z0|N0].
      + exists (ds1 ++ []), k1. rewrite app_nil_r. repeat split; auto; try lia.
        * intros Hx. exfalso. now apply (N1 flt).
      + destruct (filter_cases e De) as [|Fc]; [contradiction|].
        exists (ds1 ++ [CAdd f (filter_of e)]). rewrite sub_app, S1. cbn [sub kchange]. rewrite Opf.
        eexists. split; [reflexivity|]. split; [rewrite app_length; cbn; lia|]. split; [|split].
        * intros x. rewrite updk_same. destruct (Z.eqb_spec x (filter_of e)) as [->|Nx].
          -- split; [intros _|auto]. destruct Fc as [[-> ->] | [-> ->]]; auto.
          -- split; intros H; [exfalso; now apply (N1 x)|]. exfalso. destruct Fc as [[-> F1] | [-> F1]]; rewrite F1 in Nx; lia.
        * intros g x Hg. rewrite agree_upd_ne; auto.
        * reflexivity. }
  destruct G as (ds & k2 & Sd & Ld & Wd & Od & Ed).
  assert (Scl : sub (opened s) (kern s) (cl ++ ds) = Some k2) by (rewrite sub_app, Hs; exact Sd).
  set (fin := fun s1 : kq => set_back (set_changed s1 (BACKEND_GET_NEXT_FD (kback s f))) f (-1)).
  assert (Run : apply_one s cl =
    Ok (if e =? old then (fin s, cl) else
        if (256 <=? length (cl ++ ds) + 1)%nat then (fin (set_kern s (kevent_stop (opened s) (kern s) (cl ++ ds))), []) else (fin s, cl ++ ds))).
  { unfold apply_one. rewrite Fo, E1. fold old. destruct (e =? old) eqn:Eeo; [reflexivity|].
    rewrite Ed. unfold push_change.
    destruct (old =? 0); destruct (e =? 0); cbn [app bind length].
    - rewrite app_nil_r. destruct (256 <=? length cl + 1)%nat; reflexivity.
    - destruct (Nat.ltb_spec (length cl) 256); [|lia]. cbn [bind]. destruct (256 <=? length (cl ++ [CAdd f (filter_of e)]) + 1)%nat; reflexivity.
    - destruct (Nat.ltb_spec (length cl) 256); [|lia]. cbn [bind]. destruct (256 <=? length (cl ++ [CDisable f (filter_of old)]) + 1)%nat; reflexivity.
    - destruct (Nat.ltb_spec (length cl) 256); [|lia]. cbn [bind].
      destruct (Nat.ltb_spec (length (cl ++ [CDisable f (filter_of old)])) 256) as [|B]; [|rewrite app_length in B; cbn in B; lia].
      cbn [bind]. rewrite <- app_assoc. cbn [app].
      destruct (256 <=? length (cl ++ [CDisable f (filter_of old); CAdd f (filter_of e)]) + 1)%nat; reflexivity. }
  assert (RF : forall s1, kreg s1 = kreg s -> kev s1 = kev s -> kpath s1 = kpath s -> kback s1 = kback s -> opened s1 = opened s -> klog s1 = klog s ->
    KReg maxfd (fin s1) p L).
  { intros s1 H1 H2 H3 H4 H5 H6. unfold fin, set_back, set_changed. constructor; cbn [kreg kev kpath kback changed opened klog]; rewrite ?H1, ?H2, ?H3, ?H4, ?H5, ?H6; auto.
    - eapply chain_ext; [|exact Ch]. intros g Hg. rewrite upd_other; auto. intros ->. contradiction.
    - intros g Hg. apply Hin. right; auto.
    - intros g Hg. destruct (Nat.eq_dec g f) as [->|Ng]; [right; apply upd_same|]. rewrite upd_other by auto.
      destruct (Ho g Hg) as [[-> | ] | ]; auto. contradiction. }
  assert (AG : forall s1, kback s1 = kback s -> kev s1 = kev s -> KAgree (fin s1) k2 p L).
  { intros s1 H1 H2. split; [|split].
    - intros g Hg. destruct (Nat.eq_dec g f) as [->|Ng].
      + unfold old_of. destruct (in_dec Nat.eq_dec f L); [contradiction|]. unfold fin, set_back, set_changed; cbn [kev]. rewrite H2, E1. exact Wd.
      + assert (W : watches (k g) (old_of s (f :: L) g)) by auto.
        replace (old_of (fin s1) L g) with (old_of s (f :: L) g).
        * intros x. rewrite Od by auto. apply W.
        * unfold old_of, fin, set_back, set_changed; cbn [kback kev]. rewrite H1, H2, upd_other by auto.
          destruct (in_dec Nat.eq_dec g (f :: L)) as [[|I]|I], (in_dec Nat.eq_dec g L) as [J|J]; auto; try congruence; try contradiction. exfalso. apply I. right; auto.
    - intros g x H H'. rewrite Od; auto. intros ->. congruence.
    - intros g x H. rewrite Od; auto. intros ->. congruence. }
  rewrite Run. destruct (Z.eqb_spec e old) as [Eo|Eo].
  - subst ds. rewrite app_nil_r in Scl. exists (fin s), cl, k2. split; [reflexivity|]. split; [apply RF; auto|]. split; [exact Scl|]. split; [apply AG; auto|]. split; [exact Hl|reflexivity].
  - destruct (256 <=? length (cl ++ ds) + 1)%nat eqn:B.
    + destruct (sub_stop _ _ _ _ Scl) as [-> _]. exists (fin (set_kern s k2)), [], k2.
      split; [reflexivity|]. split; [apply RF; auto|]. split; [reflexivity|]. split; [apply AG; auto|]. split; [cbn; lia|reflexivity].
    + exists (fin s), (cl ++ ds), k2. split; [reflexivity|]. split; [apply RF; auto|]. split; [exact Scl|]. split; [apply AG; auto|].
      split; [apply Nat.leb_gt in B; lia|reflexivity].
Qed.

Lemma apply_loop_ok maxfd p L : forall fuel s cl k, (length L <= fuel)%nat ->
  KReg maxfd s p L -> sub (opened s) (kern s) cl = Some k -> KAgree s k p L -> (length cl <= 254)%nat ->
  exists s' cl' k', apply_loop fuel s cl = Ok (s', cl') /\ KReg maxfd s' p [] /\ sub (opened s') (kern s') cl' = Some k' /\
    KAgree s' k' p [] /\ (length cl' <= 254)%nat.
Proof.
  induction L as [|f L IH]; intros fuel s cl k Hf R Hs A Hl.
  - pose proof (ki_chain _ _ _ _ R) as C. cbn [chain] in C. exists s, cl, k.
    split; [destruct fuel; cbn [apply_loop]; rewrite C; reflexivity|]. auto.
  - destruct fuel as [|fuel]; [cbn in Hf; lia|].
    pose proof (ki_chain _ _ _ _ R) as C. cbn [chain] in C. destruct C as (C & _).
    cbn [apply_loop]. destruct (Z.eqb_spec (changed s) (-1)); [lia|].
    destruct (apply_one_ok maxfd s p f L cl k R Hs A Hl) as (s1 & cl1 & k1 & E & R1 & S1 & A1 & L1 & _).
    rewrite E. cbn [bind fst snd]. apply (IH fuel s1 cl1 k1); auto. cbn in Hf; lia.
Qed.

Lemma nodup_bound L : forall maxfd, NoDup L -> (forall f, In f L -> (f < maxfd)%nat) -> (length L <= maxfd)%nat.
Proof.
  intros maxfd Nd H. rewrite <- (seq_length maxfd 0). apply NoDup_incl_length; auto.
  intros f Hf. apply in_seq. specialize (H f Hf). lia.
Qed.

Lemma set_kern_reg maxfd s p L k : KReg maxfd s p L -> KReg maxfd (set_kern s k) p L.
Proof. intros [A B C D E F G H]. constructor; auto. Qed.

Lemma flush_ok maxfd fuel s p L : (maxfd <= fuel)%nat -> KInv maxfd s p L ->
  (exists s', apply_pending_changes fuel s true = Ok (s', []) /\ KInv maxfd s' p []) /\
  (exists s' cl, apply_pending_changes fuel s false = Ok (s', cl) /\
     KInv maxfd (set_kern s' (kevent_all (opened s') (kern s') cl)) p []).
Proof.
  intros Hf [R A].
  destruct (apply_loop_ok maxfd p L fuel s [] (kern s)) as (s1 & cl & k & E & R1 & S1 & A1 & _); auto.
  { pose proof (nodup_bound L maxfd (ki_nd _ _ _ _ R) (fun f Hf => proj1 (ki_in _ _ _ _ R f Hf))). lia. }
  { cbn; lia. }
  destruct (sub_stop _ _ _ _ S1) as [S2 S3].
  unfold apply_pending_changes. rewrite E. cbn [bind fst snd]. split.
  - rewrite S2. eexists. split; [reflexivity|]. split; [now apply set_kern_reg|exact A1].
  - exists s1, cl. split; [reflexivity|]. rewrite S3. split; [now apply set_kern_reg|exact A1].
Qed.

Lemma chain_bound L : forall back c maxfd, chain back c L -> (forall f, In f L -> (f < maxfd)%nat) -> -1 <= c /\ (c = -1 \/ c < Z.of_nat maxfd).
Proof. destruct L as [|f r]; intros back c maxfd; cbn [chain]; intros H B; [lia|]. destruct H as (-> & _). specialize (B f (or_introl eq_refl)). lia. Qed.

Lemma agree_ext s s' k p L : (forall f, In f L \/ want p f <> None -> kback s' f = kback s f /\ kev s' f = kev s f) -> KAgree s k p L -> KAgree s' k p L.
Proof.
  intros H (A & B & C). split; [|split]; auto. intros f Hf. replace (old_of s' L f) with (old_of s L f); auto.
  unfold old_of. destruct (H f (or_intror Hf)) as [-> ->]. reflexivity.
Qed.

Lemma not_in_L maxfd s p L f : KReg maxfd s p L -> want p f = None -> ~ In f L.
Proof. intros R H I. destruct (ki_in _ _ _ _ R f I). contradiction. Qed.

(* asking for a new interest of a registered descriptor that is not being deleted *)
Lemma update_ok maxfd fuel s p L f e e0 : Z.of_nat maxfd <= 2 ^ 23 -> (f < maxfd)%nat ->
  KInv maxfd s p L -> want p f = Some e0 -> dir e -> e <> DEL ->
  let p' := {| want := upd (want p) f (Some e); isopen := isopen p; used := used p; told := told p |} in
  exists s' L', update_internal fuel s f e = Ok s' /\ KInv maxfd s' p' L'.
Proof.
  intros Hm Hf [R A] Hw De _ p'. pose proof R as [Ch Nd Hin Hr He Ho Hop Hlog].
  destruct (He f e0 Hw) as (E1 & De0 & Pf & Of & Uf).
  unfold update_internal.
  assert (HA : has e ADD = false) by (destruct De as [-> | [-> | ->]]; reflexivity). rewrite HA.
  assert (HD : has e DEL = false) by (destruct De as [-> | [-> | ->]]; reflexivity).
  assert (HE : (e =? DEL) = false) by (destruct De as [-> | [-> | ->]]; reflexivity). rewrite HE.
  assert (HR : Z.land e RW = e) by (destruct De as [-> | [-> | ->]]; reflexivity). rewrite HR, E1.
  assert (Wp : forall g, want p' g = if Nat.eq_dec g f then Some e else want p g).
  { intros g. unfold p'; cbn [want]. destruct (Nat.eq_dec g f) as [->|]; [apply upd_same|now apply upd_other]. }
  assert (Wn : forall g, want p' g <> None -> want p g <> None).
  { intros g. rewrite Wp. destruct (Nat.eq_dec g f) as [->|]; [congruence|auto]. }
  destruct (Z.eqb_spec e e0) as [->|Ne].
  { exists s, L. split; [reflexivity|]. split.
    - constructor; auto.
      + intros g Hg. destruct (Hin g Hg) as [B1 B2]. split; auto. rewrite Wp. destruct (Nat.eq_dec g f); congruence.
      + intros g. rewrite Hr, Wp. destruct (Nat.eq_dec g f) as [->|]; auto. now rewrite Hw.
      + intros g x. rewrite Wp. destruct (Nat.eq_dec g f) as [->|]; [intros H; injection H as <-; auto|apply He].
    - destruct A as (A1 & A2 & A3). split; [|split]; auto. }
  rewrite HD. set (s2 := if kback s f =? -1 then _ else s).
  set (L' := if kback s f =? -1 then f :: L else L).
  exists (set_ev s2 f e), L'. split; [reflexivity|].
  (* facts about s2 *)
  assert (F2 : kreg s2 = kreg s /\ kev s2 = kev s /\ kpath s2 = kpath s /\ opened s2 = opened s /\ klog s2 = klog s /\ kern s2 = kern s).
  { unfold s2. destruct (kback s f =? -1); repeat split; reflexivity. }
  destruct F2 as (F1 & F2 & F3 & F4 & F5 & F6).
  assert (InL : In f L -> 0 <= kback s f).
  { clear - Ch. revert Ch. generalize (changed s). induction L as [|g r IH]; cbn [chain In]; [tauto|].
    intros c (Hc & Hb & _ & Ht) [->|I]; eauto. }
  assert (C' : chain (kback s2) (changed s2) L' /\ NoDup L' /\ In f L' /\ (forall g, In g L' <-> g = f \/ In g L) /\
    (forall g, g <> f -> kback s2 g = kback s g) /\
    BACKEND_GET_OLD_EVENTS (kback s2 f) = old_of s L f).
  { unfold s2, L'. destruct (Z.eqb_spec (kback s f) (-1)) as [B|B].
    - assert (NI : ~ In f L) by (intros I; specialize (InL I); lia).
      destruct (chain_bound L _ _ maxfd Ch (fun g Hg => proj1 (Hin g Hg))) as [B1 B2].
      destruct (build_get (changed s) e0) as (G1 & G2 & G3); [lia|destruct De0 as [-> | [-> | ->]]; lia|].
      unfold set_changed, set_back; cbn [kback changed chain]. rewrite !upd_same, G1, G2.
      split; [|split; [constructor; auto|split; [left; auto|split; [|split]]]].
      + split; [reflexivity|]. split; [exact G3|]. split; [exact De0|].
        eapply chain_ext; [|exact Ch]. intros g Hg. rewrite upd_other; auto. intros ->; contradiction.
      + intros g. cbn. split; intros [|]; auto.
      + intros g Hg. now rewrite upd_other.
      + unfold old_of. destruct (in_dec Nat.eq_dec f L); [contradiction|]. now rewrite E1.
    - assert (I : In f L) by (destruct (Ho f); [congruence|auto|contradiction]).
      split; [exact Ch|]. split; [exact Nd|]. split; [exact I|]. split; [|split; [auto|]].
      + intros g. split; [auto|]. intros [->|]; auto.
      + unfold old_of. destruct (in_dec Nat.eq_dec f L); [|contradiction]. reflexivity. }
  destruct C' as (C1 & C2 & C3 & C4 & C5 & C6).
  split.
  - constructor; unfold set_ev; cbn [kreg kev kpath kback changed opened klog]; rewrite ?F1, ?F2, ?F3, ?F4, ?F5; auto.
    + intros g Hg. apply C4 in Hg. rewrite Wp. destruct Hg as [->|Hg].
      * split; auto. destruct (Nat.eq_dec f f); congruence.
      * destruct (Hin g Hg). split; auto. destruct (Nat.eq_dec g f); congruence.
    + intros g. rewrite Hr, Wp. destruct (Nat.eq_dec g f) as [->|]; auto. now rewrite Hw.
    + intros g x. rewrite Wp. destruct (Nat.eq_dec g f) as [->|Ng].
      * intros H. injection H as <-. rewrite upd_same. auto.
      * rewrite upd_other by auto. apply He.
    + intros g Hg. destruct (Nat.eq_dec g f) as [->|Ng]; [left; auto|]. rewrite C5 by auto.
      destruct (Ho g (Wn g Hg)); auto. left. apply C4. auto.
  - destruct A as (A1 & A2 & A3). unfold set_ev; cbn [kern]. rewrite F6. split; [|split]; auto.
    intros g Hg. specialize (A1 g (Wn g Hg)). destruct (Nat.eq_dec g f) as [->|Ng].
    + unfold old_of at 1; cbn [kback kev]. destruct (in_dec Nat.eq_dec f L'); [|contradiction]. now rewrite C6.
    + replace (old_of _ L' g) with (old_of s L g); auto. unfold old_of; cbn [kback kev]. rewrite F2, upd_other, C5 by auto.
      destruct (in_dec Nat.eq_dec g L) as [I|I], (in_dec Nat.eq_dec g L') as [J|J]; auto.
      * exfalso. apply J, C4. auto.
      * apply C4 in J. destruct J; contradiction.
Qed.

(* a descriptor enters the table *)
Lemma enter_ok maxfd s p L f : KInv maxfd s p L -> isopen p f = true -> used p f = false ->
  let p' := {| want := upd (want p) f (Some 0); isopen := isopen p; used := upd (used p) f true; told := told p |} in
  KInv maxfd (set_back (set_target s f true 0 false) f (-1)) p' L.
Proof.
  intros [R A] Op Us p'. pose proof R as [Ch Nd Hin Hr He Ho Hop Hlog].
  assert (Wn : want p f = None).
  { destruct (want p f) eqn:E; auto. destruct (He f z E) as (_ & _ & _ & _ & U). congruence. }
  assert (NI : ~ In f L) by (eapply not_in_L; eauto).
  split.
  - constructor; unfold set_back, set_target; cbn [kreg kev kpath kback changed opened klog]; auto.
    + eapply chain_ext; [|exact Ch]. intros g Hg. rewrite upd_other; auto. intros ->; contradiction.
    + intros g Hg. destruct (Hin g Hg). split; auto. unfold p'; cbn [want]. rewrite upd_other; auto. intros ->; contradiction.
    + intros g. unfold p'; cbn [want]. unfold upd. destruct (Nat.eqb g f); auto.
    + intros g x. unfold p'; cbn [want isopen used]. unfold upd. destruct (Nat.eqb_spec g f) as [->|]; [|apply He].
      intros H; injection H as <-. unfold dir. auto.
    + intros g. unfold p'; cbn [want]. unfold upd. destruct (Nat.eqb_spec g f); auto.
  - destruct A as (A1 & A2 & A3). split; [|split]; cbn [kern set_back set_target].
    + intros g. unfold p'; cbn [want]. unfold upd. destruct (Nat.eqb_spec g f) as [->|Ng].
      * intros _ x. rewrite A2 by auto. unfold old_of. destruct (in_dec Nat.eq_dec f L); [contradiction|].
        cbn [kev set_back set_target]. unfold upd. rewrite Nat.eqb_refl. split; [discriminate|lia].
      * intros Hg. specialize (A1 g Hg). replace (old_of _ L g) with (old_of s L g); auto.
        unfold old_of; cbn [kback kev set_back set_target]. now rewrite !upd_other by auto.
    + intros g x. unfold p'; cbn [isopen used]. unfold upd. destruct (Nat.eqb_spec g f); [discriminate|auto].
    + auto.
Qed.

Lemma update_add fuel s f e : e = 1 \/ e = 2 ->
  update_internal fuel (set_target s f true 0 (e =? PATHWATCH)) f (Z.lor e ADD) =
  update_internal fuel (set_back (set_target s f true 0 false) f (-1)) f e.
Proof.
  intros He. unfold update_internal.
  assert (H1 : has (Z.lor e ADD) ADD = true /\ has e ADD = false /\ (Z.lor e ADD =? DEL) = false /\ (e =? DEL) = false /\
    Z.land (Z.lor e ADD) RW = Z.land e RW /\ has (Z.lor e ADD) DEL = has e DEL /\ (e =? PATHWATCH) = false)
    by (destruct He as [-> | ->]; repeat split; reflexivity).
  destruct H1 as (H1 & H2 & H3 & H4 & H5 & H6 & H7). rewrite H1, H2, H3, H4, H5, H6, H7. reflexivity.
Qed.

Lemma kinv_ext maxfd s p p' L : want p' = want p -> isopen p' = isopen p -> used p' = used p -> told p' = told p ->
  KInv maxfd s p L -> KInv maxfd s p' L.
Proof.
  intros H1 H2 H3 H4 [[A B C D E F G H] (I & J & K)]. split; [constructor|split; [|split]]; rewrite ?H1, ?H2, ?H3, ?H4; auto.
Qed.

Lemma kinv_pw maxfd s p p' L : (forall f, want p' f = want p f) -> (forall f, isopen p' f = isopen p f) -> (forall f, used p' f = used p f) -> told p' = told p ->
  KInv maxfd s p L -> KInv maxfd s p' L.
Proof.
  intros H1 H2 H3 H4 [[A B C D E F G H] (I & J & K)]. split; [constructor|split; [|split]]; try rewrite H4; auto.
  - intros f Hf. rewrite H1. auto.
  - intros f. rewrite H1. auto.
  - intros f e. rewrite H1, H2, H3. auto.
  - intros f. rewrite H1. auto.
  - intros f. rewrite H2. auto.
  - intros f. rewrite H1. auto.
  - intros f flt. rewrite H2, H3. auto.
  - intros f flt. rewrite H2. auto.
Qed.

(* dropping a descriptor that is not on the list *)
Lemma drop_ok maxfd s p L f : KInv maxfd s p L -> ~ In f L ->
  KInv maxfd (set_reg s f false) {| want := upd (want p) f None; isopen := isopen p; used := used p; told := told p |} L.
Proof.
  intros [R A] NI. pose proof R as [Ch Nd Hin Hr He Ho Hop Hlog]. destruct A as (A1 & A2 & A3).
  split; [constructor|split; [|split]]; cbn [kreg kev kpath kback changed opened klog kern set_reg want isopen used told]; auto.
  - intros g Hg. destruct (Hin g Hg). split; auto. rewrite upd_other; auto. intros ->; contradiction.
  - intros g. unfold upd. destruct (Nat.eqb g f); auto.
  - intros g x. unfold upd. destruct (Nat.eqb g f); [discriminate|apply He].
  - intros g. unfold upd. destruct (Nat.eqb g f); [congruence|apply Ho].
  - intros g. unfold upd. destruct (Nat.eqb g f); [congruence|]. intros Hg. exact (A1 g Hg).
Qed.

Lemma kstep_ok maxfd fuel s p L o : Z.of_nat maxfd <= 2 ^ 23 -> (maxfd <= fuel)%nat -> KInv maxfd s p L -> kobeys1 maxfd p o ->
  exists s' L', kstep maxfd fuel s o = Ok s' /\ KInv maxfd s' (kspec_step p o) L'.
Proof.
  intros Hm Hfu I Hb. pose proof I as [R A]. destruct o as [f e|f|f e| |f flt eof|f|f]; cbn [kobeys1 kstep kspec_step] in *.
  - destruct Hb as (Hf & De & Op & Us). unfold ev_add. destruct (Nat.ltb_spec f maxfd); [|lia].
    rewrite update_add by auto.
    destruct (update_ok maxfd fuel _ _ L f e 0 Hm Hf (enter_ok maxfd s p L f I Op Us)) as (s' & L' & E & I').
    + cbn [want]. apply upd_same.
    + unfold dir. tauto.
    + destruct De as [-> | ->]; discriminate.
    + exists s', L'. split; [exact E|]. eapply kinv_pw; [..|exact I']; cbn [want isopen used told]; auto.
      intros g. unfold upd. destruct (Nat.eqb g f); auto.
  - unfold ev_del. destruct (Nat.ltb_spec f maxfd); [|lia].
    rewrite (ki_reg _ _ _ _ R f). destruct (want p f) as [e|] eqn:Ew.
    2:{ exists s, L. split; [reflexivity|]. eapply kinv_pw; [..|exact I]; cbn [want isopen used told]; auto.
        intros g. unfold upd. destruct (Nat.eqb_spec g f); congruence. }
    unfold update_internal at 1. change (has DEL ADD) with false. change (DEL =? DEL) with true. cbv beta iota zeta.
    destruct (Z.eqb_spec (kback s f) (-1)) as [B|B].
    + cbn [bind]. exists (set_reg s f false), L. split; [reflexivity|]. apply drop_ok; auto.
      intros J. assert (0 <= kback s f); [|lia].
      pose proof (ki_chain _ _ _ _ R) as Ch. clear - Ch J. revert Ch. generalize (changed s).
      induction L as [|g r IH]; cbn [chain In] in *; [tauto|]. intros c (Hc & Hb & _ & Ht). destruct J as [->|J]; eauto.
    + change (has DEL DEL) with true. cbv iota.
      assert (I3 : KInv maxfd (set_ev s f (Z.land DEL RW)) {| want := upd (want p) f (Some 0); isopen := isopen p; used := used p; told := told p |} L).
      { change (Z.land DEL RW) with 0. pose proof R as [Ch Nd Hin Hr He Ho Hop Hlog]. destruct A as (A1 & A2 & A3).
        assert (IL : In f L) by (destruct (Ho f); [congruence|auto|contradiction]).
        destruct (He f e Ew) as (X1 & X2 & X3 & X4 & X5).
        split; [constructor|split; [|split]]; cbn [kreg kev kpath kback changed opened klog kern set_ev want isopen used told]; auto.
        - intros g Hg. destruct (Hin g Hg). split; auto. unfold upd. destruct (Nat.eqb g f); congruence.
        - intros g. rewrite Hr. unfold upd. destruct (Nat.eqb_spec g f) as [->|]; auto. now rewrite Ew.
        - intros g x. unfold upd. destruct (Nat.eqb_spec g f) as [->|]; [|apply He]. intros H'; injection H' as <-. unfold dir. auto.
        - intros g. unfold upd. destruct (Nat.eqb_spec g f) as [->|]; auto.
        - intros g. intros Hg. assert (Wg : want p g <> None) by (unfold upd in Hg; destruct (Nat.eqb_spec g f); congruence).
          specialize (A1 g Wg). replace (old_of _ L g) with (old_of s L g); auto. unfold old_of; cbn [kback kev set_ev].
          destruct (in_dec Nat.eq_dec g L); auto. rewrite upd_other; auto. intros ->. contradiction. }
      destruct (flush_ok maxfd fuel _ _ L Hfu I3) as [(s' & E & I') _].
      rewrite E. cbn [bind fst]. exists (set_reg s' f false), []. split; [reflexivity|].
      eapply kinv_pw; [..|exact (drop_ok maxfd s' _ [] f I' (fun x => x))]; cbn [want isopen used told]; auto.
      intros g. unfold upd. destruct (Nat.eqb g f); auto.
  - destruct Hb as (Hf & De & Hw). unfold ev_set. destruct (Nat.ltb_spec f maxfd); [|lia].
    destruct (want p f) as [e0|] eqn:Ew; [|congruence].
    destruct (ki_ev _ _ _ _ R f e0 Ew) as (X1 & X2 & X3 & X4 & X5).
    rewrite (ki_reg _ _ _ _ R f), Ew, X1. destruct (Z.eqb_spec e0 e) as [->|Ne].
    + exists s, L. split; [reflexivity|]. eapply kinv_pw; [..|exact I]; cbn [want isopen used told]; auto.
      intros g. unfold upd. destruct (Nat.eqb_spec g f); congruence.
    + apply (update_ok maxfd fuel s p L f e e0); auto. destruct De as [-> | [-> | ->]]; discriminate.
  - destruct (flush_ok maxfd fuel _ _ L Hfu I) as [_ (s' & cl & E & I')]. rewrite E. cbn [bind fst snd].
    eexists; eexists; split; [reflexivity|exact I'].
  - destruct Hb as (Hf & Hflt). unfold dispatch. destruct (Nat.ltb_spec f maxfd); [|lia].
    rewrite (ki_reg _ _ _ _ R f). destruct (want p f) as [e|] eqn:Ew; [|exists s, L; auto].
    destruct (ki_ev _ _ _ _ R f e Ew) as (X1 & X2 & X3 & X4 & X5). rewrite X3.
    exists (add_log s (KCall f (tells flt eof))), L. split.
    + destruct Hflt as [-> | ->]; destruct eof; reflexivity.
    + pose proof R as [Ch Nd Hin Hr He Ho Hop Hlog]. split; [constructor|exact A]; cbn [kreg kev kpath kback changed opened klog add_log told]; auto.
      now rewrite Hlog.
  - pose proof R as [Ch Nd Hin Hr He Ho Hop Hlog]. destruct A as (A1 & A2 & A3).
    exists (set_open s f true), L. split; [reflexivity|].
    split; [constructor|split; [|split]]; cbn [kreg kev kpath kback changed opened klog kern set_open want isopen used told]; auto.
    + intros g x Hg. destruct (He g x Hg) as (X1 & X2 & X3 & X4 & X5). assert (g <> f) by congruence.
      rewrite !upd_other by auto. auto.
    + intros g. unfold upd. destruct (Nat.eqb g f); auto.
    + intros g x. unfold upd. destruct (Nat.eqb_spec g f) as [->|]; auto.
    + intros g x. unfold upd. destruct (Nat.eqb_spec g f) as [->|]; auto.
  - pose proof R as [Ch Nd Hin Hr He Ho Hop Hlog]. destruct A as (A1 & A2 & A3).
    eexists; exists L. split; [reflexivity|].
    split; [constructor|split; [|split]]; cbn [kreg kev kpath kback changed opened klog kern set_open set_kern want isopen used told]; auto.
    + intros g x Hg. destruct (He g x Hg) as (X1 & X2 & X3 & X4 & X5). assert (g <> f) by congruence.
      rewrite !upd_other by auto. auto.
    + intros g. unfold upd. destruct (Nat.eqb g f); auto.
    + intros g Hg. assert (g <> f) by congruence. specialize (A1 g Hg).
      replace (old_of _ L g) with (old_of s L g) by reflexivity. intros x.
      destruct (Nat.eqb_spec g f); [contradiction|apply A1].
    + intros g x. unfold upd. destruct (Nat.eqb_spec g f) as [->|]; [discriminate|auto].
    + intros g x. unfold upd. destruct (Nat.eqb_spec g f) as [->|]; auto.
Qed.

Lemma krun_ok maxfd fuel l : forall s p L, Z.of_nat maxfd <= 2 ^ 23 -> (maxfd <= fuel)%nat -> KInv maxfd s p L -> kobeys maxfd p l ->
  exists s' L', krun maxfd fuel s l = Ok s' /\ KInv maxfd s' (fold_left kspec_step l p) L'.
Proof.
  induction l as [|o r IH]; intros s p L Hm Hf I Hb; cbn [krun fold_left].
  - eauto.
  - destruct Hb as [H1 H2]. destruct (kstep_ok maxfd fuel s p L o Hm Hf I H1) as (s1 & L1 & E & I1).
    rewrite E. cbn [bind]. eapply IH; eauto.
Qed.

Lemma krun_app maxfd fuel l1 : forall l2 s, krun maxfd fuel s (l1 ++ l2) = do s1 <- krun maxfd fuel s l1; krun maxfd fuel s1 l2.
Proof. induction l1 as [|o r IH]; intros l2 s; cbn [krun app bind]; auto. destruct (kstep maxfd fuel s o); cbn [bind]; auto. Qed.

Lemma kinv0 maxfd : KInv maxfd kq_create kspec0 [].
Proof.
  split; [constructor|split; [|split]]; cbn; auto; try tauto; try congruence. constructor.
Qed.

(* after any lawful program and the start of a poll the kernel watches what was last asked for *)
Lemma kernel_follows maxfd fuel l : Z.of_nat maxfd <= 2 ^ 23 -> (maxfd <= fuel)%nat -> kobeys maxfd kspec0 l ->
  exists s, krun maxfd fuel kq_create (l ++ [KPoll]) = Ok s /\
    (forall f e, want (kspec_run l) f = Some e ->
       (kern s f F_READ = Some true <-> e = READ) /\ (kern s f F_WRITE = Some true <-> e = WRITE) /\
       forall flt, flt <> F_READ -> flt <> F_WRITE -> kern s f flt <> Some true).
Proof.
  intros Hm Hf Hb. destruct (krun_ok maxfd fuel l kq_create kspec0 [] Hm Hf (kinv0 maxfd) Hb) as (s1 & L & E & I).
  destruct (flush_ok maxfd fuel s1 _ L Hf I) as [_ (s2 & cl & E2 & I2)].
  rewrite krun_app, E. cbn [bind krun kstep]. rewrite E2. cbn [bind fst snd]. eexists; split; [reflexivity|].
  intros f e Hw. destruct I2 as [R (A & _ & _)].
  assert (W : watches (kern (set_kern s2 (kevent_all (opened s2) (kern s2) cl)) f) e).
  { assert (Hn : want (fold_left kspec_step l kspec0) f <> None) by (unfold kspec_run in Hw; congruence).
    specialize (A f Hn). unfold old_of in A. cbn [in_dec] in A.
    destruct (ki_ev _ _ _ _ R f e Hw) as (X & _). destruct (in_dec Nat.eq_dec f []) as [[]|_]. rewrite X in A. exact A. }
  split; [|split].
  - rewrite (W F_READ). unfold F_READ, READ. lia.
  - rewrite (W F_WRITE). unfold F_WRITE, WRITE. lia.
  - intros flt H1 H2 H3. apply W in H3. unfold F_READ, F_WRITE in *. lia.
Qed.

Lemma callbacks_follow maxfd fuel l : Z.of_nat maxfd <= 2 ^ 23 -> (maxfd <= fuel)%nat -> kobeys maxfd kspec0 l ->
  exists s, krun maxfd fuel kq_create l = Ok s /\ klog s = told (kspec_run l).
Proof.
  intros Hm Hf Hb. destruct (krun_ok maxfd fuel l kq_create kspec0 [] Hm Hf (kinv0 maxfd) Hb) as (s1 & L & E & [R _]).
  exists s1. split; auto. apply (ki_log _ _ _ _ R).
Qed.

(* from any state whatever, the change list is never overrun *)
Lemma apply_one_len s cl : (length cl <= 254)%nat ->
  exists s' cl', apply_one s cl = Ok (s', cl') /\ (length cl' <= 254)%nat.
Proof.
  intros H. unfold apply_one. set (f := Z.to_nat (changed s)). set (old := BACKEND_GET_OLD_EVENTS (kback s f)).
  destruct (kev s f =? old); [cbn [bind]; eauto|].
  unfold push_change.
  assert (G1 : exists c1, (if old =? 0 then Ok cl else if (length cl <? 256)%nat then Ok (cl ++ [CDisable f (filter_of old)]) else UB) = Ok c1 /\ (length c1 <= 255)%nat).
  { destruct (old =? 0); [eexists; split; [reflexivity|lia]|]. destruct (Nat.ltb_spec (length cl) 256); [|lia].
    eexists; split; [reflexivity|]. rewrite app_length. cbn [length]. lia. }
  destruct G1 as (c1 & -> & L1). cbn [bind].
  assert (G2 : exists c2, (if kev s f =? 0 then Ok c1 else if (length c1 <? 256)%nat then Ok (c1 ++ [CAdd f (filter_of (kev s f))]) else UB) = Ok c2).
  { destruct (kev s f =? 0); [eauto|]. destruct (Nat.ltb_spec (length c1) 256); [eauto|lia]. }
  destruct G2 as (c2 & ->). cbn [bind].
  destruct (256 <=? length c2 + 1)%nat eqn:B; eexists; eexists; (split; [reflexivity|]); [cbn [length]; lia|apply Nat.leb_gt in B; lia].
Qed.
Lemma apply_loop_len fuel : forall s cl, (length cl <= 254)%nat ->
  apply_loop fuel s cl = Fuel \/ exists s' cl', apply_loop fuel s cl = Ok (s', cl') /\ (length cl' <= 254)%nat.
Proof.
  induction fuel as [|k IH]; intros s cl H; cbn [apply_loop]; destruct (changed s =? -1); eauto.
  destruct (apply_one_len s cl H) as (s' & cl' & E & H'). rewrite E. cbn [bind fst snd]. auto.
Qed.
Lemma in_bounds fuel s all : apply_pending_changes fuel s all <> UB /\
  forall s' cl, apply_pending_changes fuel s all = Ok (s', cl) -> (length cl <= 254)%nat.
Proof.
  unfold apply_pending_changes. destruct (apply_loop_len fuel s [] ltac:(cbn; lia)) as [E|(s' & cl & E & H)]; rewrite E; cbn [bind fst snd].
  - split; discriminate.
  - split; [discriminate|]. intros s1 cl1. destruct all; intros X; injection X as <- <-; cbn [length]; lia.
Qed.

Lemma told_small l : forall p, (forall f rev, In (KCall f rev) (told p) -> Z.land rev 4 = 0) ->
  forall f rev, In (KCall f rev) (told (fold_left kspec_step l p)) -> Z.land rev 4 = 0.
Proof.
  induction l as [|o r IH]; intros p H; cbn [fold_left]; auto. apply IH.
  intros f rev. destruct o as [g e|g|g e| |g flt eof|g|g]; try exact (H f rev).
  cbn [kspec_step]. destruct (want p g); [|exact (H f rev)]. cbn [told]. rewrite in_app_iff. intros [I|[I|[]]]; [eauto|].
  injection I as _ <-. unfold tells. destruct (flt =? -1), eof; reflexivity.
Qed.
Lemma hangup_never_told maxfd fuel l s f rev : Z.of_nat maxfd <= 2 ^ 23 -> (maxfd <= fuel)%nat -> kobeys maxfd kspec0 l ->
  krun maxfd fuel kq_create l = Ok s -> In (KCall f rev) (klog s) -> Z.land rev 4 = 0.
Proof.
  intros H1 H2 H3 E. destruct (callbacks_follow maxfd fuel l H1 H2 H3) as (s' & E' & L). rewrite E in E'. injection E' as <-.
  rewrite L. unfold kspec_run. apply told_small. cbn. tauto.
Qed.
