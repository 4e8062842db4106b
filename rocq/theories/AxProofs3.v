(* Histories of switches: any number of tasks, any computation between. *)
From Coq Require Import ZArith List Bool Lia.
From Verif Require Import Base AxModel AxProofs AxProofs2.
Import ListNotations.
Open Scope Z_scope.

Definition offs_ok (A : arch) (offs : list Z) : Prop :=
  (forall o, In o offs -> 0 <= o < a_area A) /\ 8 < a_area A /\ 0 < a_w A.

Definition first_ctx (A : arch) (h n : Z) (vals : list Z) : ctx :=
  mkC (a_entry A) (floor16 (h + n - a_room A) - (if a_ret A then 0 else a_w A)) vals.

Definition derive_ok (A : arch) (offs : list Z) : Prop :=
  forall m h n, 0 < h -> h mod 16 = 0 -> h + n < space (a_w A) -> a_area A + 64 <= n ->
  exists m', a_derive A m h n = Ok m' /\ tib m' = tib m /\
    (exists vals, holds A offs m' h (first_ctx A h n vals)) /\
    (a_ret A = None -> forall vals, let q := c_sp (first_ctx A h n vals) - a_w A in
       h + a_area A <= q /\ q + a_w A < h + n /\ q mod a_w A = 0) /\
    forall a, ~ (h <= a < h + n) -> mem m' a = mem m a.

Definition inv (A : arch) (offs : list Z) (g : Z -> option ctx) (cur : Z) (m : mach) : Prop :=
  g cur = None /\
  (forall k, live g cur k -> area_placed A (tib m) k) /\
  (forall k k', live g cur k -> live g cur k' -> k <> k' -> apart A k k') /\
  tib_placed A (tib m) /\
  (forall k c, g k = Some c -> holds A offs m k c /\ ctx_placed A (live g cur) (tib m) c).

Lemma holds_frame A offs m m' k c : offs_ok A offs -> holds A offs m k c ->
  (forall a, guard A k c a -> mem m' a = mem m a) -> holds A offs m' k c.
Proof.
  intros (Ho & Ha & Hw) (H1 & H2) Hf. unfold holds, guard in *. split.
  - destruct (a_ret A) eqn:Er.
    + rewrite !Hf by (left; lia). exact H1.
    + rewrite (Hf k) by (left; lia). rewrite (Hf (c_sp c - a_w A)) by (right; auto). exact H1.
  - rewrite <- H2. apply map_ext_in. intros o Hin. apply Hf. left. specialize (Ho o Hin). lia.
Qed.

Lemma ctx_placed_sub A (L L' : Z -> Prop) T c :
  (forall k, L' k -> L k) -> ctx_placed A L T c -> ctx_placed A L' T c.
Proof.
  intros Hs H Er. destruct (H Er) as (P1 & P2 & P3 & P4 & P5).
  split; [exact P1|]. split; [exact P2|]. split; [exact P3|]. split; [|exact P5].
  intros k Hk. apply P4, Hs, Hk.
Qed.

Lemma live_none g cur h k : live (gset g h None) cur k -> live g cur k.
Proof.
  intros [->|H]; [left; reflexivity|]. unfold gset in H.
  destruct (k =? h); [congruence|right; exact H].
Qed.

Lemma live_new g cur h c k : live (gset g h (Some c)) cur k -> k = h \/ live g cur k.
Proof.
  intros [->|H]; [right; left; reflexivity|]. unfold gset in H.
  destruct (Z.eqb_spec k h); [left; assumption|right; right; exact H].
Qed.

Lemma live_switch g cur h c k : g h <> None ->
  live (gset (gset g cur (Some c)) h None) h k -> live g cur k.
Proof.
  intros Hh [->|H]; [right; exact Hh|]. unfold gset in H.
  destruct (k =? h); [congruence|]. destruct (Z.eqb_spec k cur); [left; assumption|right; exact H].
Qed.

Lemma inv_work A offs g cur m m' : offs_ok A offs -> inv A offs g cur m ->
  may_work A g m m' -> inv A offs g cur m'.
Proof.
  intros HO (I1 & I2 & I3 & I4 & I5) (Ht & Hf). unfold inv. rewrite Ht.
  split; [exact I1|]. split; [exact I2|]. split; [exact I3|]. split; [exact I4|].
  intros k c Hk. destruct (I5 k c Hk) as (H1 & H2). split; [|exact H2].
  eapply holds_frame; [exact HO|exact H1|]. intros a. apply Hf. exact Hk.
Qed.

Lemma inv_drop A offs g cur m h : inv A offs g cur m -> inv A offs (gset g h None) cur m.
Proof.
  intros (I1 & I2 & I3 & I4 & I5). unfold inv.
  split; [unfold gset; destruct (cur =? h); auto|].
  split; [intros k Hk; apply I2; eapply live_none; exact Hk|].
  split; [intros k k' Hk Hk'; apply I3; eapply live_none; eassumption|].
  split; [exact I4|].
  intros k c Hk. unfold gset in Hk. destruct (k =? h); [discriminate|].
  destruct (I5 k c Hk) as (H1 & H2). split; [exact H1|].
  eapply ctx_placed_sub; [|exact H2]. intros k'. apply live_none.
Qed.

Lemma inv_new A offs g cur m h n m' vals : offs_ok A offs -> inv A offs g cur m ->
  may_new A g cur m h n -> tib m' = tib m ->
  holds A offs m' h (first_ctx A h n vals) ->
  (a_ret A = None -> forall vals, let q := c_sp (first_ctx A h n vals) - a_w A in
       h + a_area A <= q /\ q + a_w A < h + n /\ q mod a_w A = 0) ->
  (forall a, ~ (h <= a < h + n) -> mem m' a = mem m a) ->
  inv A offs (gset g h (Some (first_ctx A h n vals))) cur m'.
Proof.
  intros HO (I1 & I2 & I3 & I4 & I5) (N1 & N2 & N3 & N4 & N5 & N6 & N7) Ht Hh Hq Hf.
  pose proof HO as (_ & Ha & Hw).
  assert (Hnl : ~ live g cur h). { intros L. specialize (N5 h L). lia. }
  assert (Hp : area_placed A (tib m) h).
  { split; [exact N1|]. split; [exact N2|]. split; [lia|]. intros E. specialize (N7 E). lia. }
  unfold inv. rewrite Ht.
  split. { unfold gset. destruct (Z.eqb_spec cur h); [subst; exfalso; apply Hnl; left; reflexivity|exact I1]. }
  split. { intros k Hk. apply live_new in Hk as [->|Hk]; [exact Hp|apply I2; exact Hk]. }
  split.
  { intros k k' Hk Hk' Hne. apply live_new in Hk as [->|Hk]; apply live_new in Hk' as [->|Hk'].
    - congruence.
    - specialize (N5 k' Hk'). unfold apart. lia.
    - specialize (N5 k Hk). unfold apart. lia.
    - apply I3; assumption. }
  split; [exact I4|].
  intros k c Hk. unfold gset in Hk. destruct (Z.eqb_spec k h) as [->|Hkh].
  - inversion Hk; subst; clear Hk. split; [exact Hh|].
    intros Er. destruct (Hq Er vals) as (Q1 & Q2 & Q3). cbv zeta in Q1, Q2, Q3.
    set (q := c_sp (first_ctx A h n vals) - a_w A) in *.
    split; [lia|]. split; [lia|]. split; [exact Q3|]. split.
    + intros k Hk. apply live_new in Hk as [->|Hk]; [lia|]. specialize (N5 k Hk). lia.
    + intros E. specialize (N7 E). lia.
  - destruct (I5 k c Hk) as (H1 & H2). split.
    + eapply holds_frame; [exact HO|exact H1|]. intros a Hga. apply Hf. eapply N6; eassumption.
    + intros Er. destruct (H2 Er) as (P1 & P2 & P3 & P4 & P5).
      split; [exact P1|]. split; [exact P2|]. split; [exact P3|]. split; [|exact P5].
      intros k' Hk'. apply live_new in Hk' as [->|Hk']; [|apply P4; exact Hk'].
      assert (Hno : ~ (h <= c_sp c - a_w A < h + n)).
      { eapply N6; [exact Hk|]. right. auto. }
      lia.
Qed.

Lemma inv_switch A offs g cur m h c : offs_ok A offs -> switch_ok A offs ->
  inv A offs g cur m -> may_switch A g cur m h -> g h = Some c ->
  exists m' pc, a_swap A m = Ok (m', pc) /\ resumed A m' pc c /\
    inv A offs (gset (gset g cur (Some (ctx_of A m))) h None) h m'.
Proof.
  intros HO HS (I1 & I2 & I3 & I4 & I5) (S1 & S2 & S3 & S4 & S5) Hc.
  pose proof HO as (_ & Ha & Hw).
  assert (Hne : cur <> h) by congruence.
  assert (Lc : live g cur cur) by (left; reflexivity).
  assert (Lh : live g cur h) by (right; congruence).
  destruct (I5 h c Hc) as (Hho & Hcp).
  assert (Hme : ctx_placed A (live g cur) (tib m) (ctx_of A m)).
  { intros Er. specialize (S5 Er). cbv zeta in S5. unfold ctx_of. rewrite Er. simpl.
    replace (reg m (a_sp A) + a_w A - a_w A) with (reg m (a_sp A)) by (clear; lia). tauto. }
  destruct (HS m cur h c) as (m' & pc & Es & Er & Et & Eh & Ef).
  - exact Hne.
  - apply I2, Lc.
  - apply I2, Lh.
  - apply I3; assumption.
  - exact I4.
  - exact S4.
  - exact Hho.
  - eapply ctx_placed_sub; [|exact Hcp]. intros k [->| ->]; assumption.
  - intros _. eapply ctx_placed_sub; [|exact Hme]. intros k [->| ->]; assumption.
  - exact S2.
  - exact S3.
  - exists m', pc. split; [exact Es|]. split; [exact Er|].
    unfold inv. rewrite Et.
    split; [unfold gset; rewrite Z.eqb_refl; reflexivity|].
    split; [intros k Hk; apply I2; eapply live_switch; [exact S1|exact Hk]|].
    split; [intros k k' Hk Hk'; apply I3; eapply live_switch; try exact S1; eassumption|].
    split; [exact I4|].
    assert (Hsub : forall T d, ctx_placed A (live g cur) T d ->
      ctx_placed A (live (gset (gset g cur (Some (ctx_of A m))) h None) h) T d).
    { intros T d Hd. eapply ctx_placed_sub; [|exact Hd]. intros k. apply live_switch. exact S1. }
    intros k d Hk. unfold gset in Hk. destruct (Z.eqb_spec k h); [discriminate|].
    destruct (Z.eqb_spec k cur) as [->|Hkc].
    + inversion Hk; subst d. split; [exact Eh|apply Hsub; exact Hme].
    + destruct (I5 k d Hk) as (H1 & H2). split; [|apply Hsub; exact H2].
      assert (Lk : live g cur k) by (right; congruence).
      eapply holds_frame; [exact HO|exact H1|]. intros a Hga. apply Ef.
      * destruct Hga as [Hga|(Hn & ->)].
        -- specialize (I3 k cur Lk Lc Hkc). unfold apart in I3. clear - I3 Hga. lia.
        -- destruct (H2 Hn) as (_ & _ & _ & P4 & _). apply P4, Lc.
      * intros Hti. destruct Hga as [Hga|(Hn & ->)].
        -- destruct (I2 k Lk) as (_ & _ & _ & K4). specialize (K4 Hti). clear - K4 Hga. lia.
        -- destruct (H2 Hn) as (_ & _ & _ & _ & P5). specialize (P5 Hti). clear - P5. lia.
Qed.

Lemma plays_legal A offs : offs_ok A offs -> switch_ok A offs -> derive_ok A offs ->
  forall l g cur m, inv A offs g cur m -> legal A g cur m l -> plays A g cur m l.
Proof.
  intros HO HS HD. induction l as [|o l IH]; intros g cur m HI HL; [exact I|].
  destruct o as [m1|h n|h|h]; cbn [legal plays] in *.
  - destruct HL as (H1 & H2). apply IH; [|exact H2]. eapply inv_work; eassumption.
  - destruct HL as (H1 & H2). pose proof H1 as (N1 & N2 & N3 & N4 & _).
    destruct (HD m h n N1 N2 N3 N4) as (m' & Ed & Et & (vals & Hh) & Hq & Hf).
    exists m', vals. split; [exact Ed|]. apply IH; [|apply H2; exact Ed].
    exact (inv_new _ _ _ _ _ _ _ _ _ HO HI H1 Et Hh Hq Hf).
  - apply IH; [|exact HL]. apply inv_drop. exact HI.
  - destruct HL as (H1 & H2). pose proof H1 as (S1 & _).
    destruct (g h) as [c|] eqn:Hc; [|congruence].
    destruct (inv_switch _ _ _ _ _ _ _ HO HS HI H1 Hc) as (m' & pc & Es & Er & HI').
    exists m', pc, c. split; [reflexivity|]. split; [exact Es|]. split; [exact Er|].
    apply IH; [exact HI'|]. apply (H2 m' pc). exact Es.
Qed.

Lemma starts_inv A offs cur m : starts A cur m -> inv A offs (fun _ => None) cur m.
Proof.
  intros (H1 & H2 & H3 & H4). unfold inv. split; [reflexivity|].
  assert (HL : forall k, live (fun _ => None) cur k -> k = cur) by (intros k [->|C]; congruence).
  split. { intros k Hk. rewrite (HL k Hk). repeat split; try assumption. intros E; apply H4, E. }
  split. { intros k k' Hk Hk' Hne. rewrite (HL k Hk), (HL k' Hk') in Hne. congruence. }
  split. { intros E. specialize (H4 E). tauto. }
  intros k c E. discriminate.
Qed.

(* ---- the set-up of a new task ---- *)

Lemma st_ok w m a v : a mod w = 0 -> st w m a v = Ok (with_mem m a v).
Proof. intros H. unfold st. rewrite H. reflexivity. Qed.

Lemma mset_same f a v : mset f a v a = v.
Proof. unfold mset. rewrite Z.eqb_refl. reflexivity. Qed.
Lemma mset_other f a v b : b <> a -> mset f a v b = f b.
Proof. intros H. unfold mset. destruct (Z.eqb_spec b a); [contradiction|reflexivity]. Qed.

Lemma align_down_floor a : align_down a = floor16 a.
Proof. unfold align_down, floor16. lia. Qed.

Lemma floor16_spec a : floor16 a mod 16 = 0 /\ floor16 a <= a < floor16 a + 16.
Proof. unfold floor16. lia. Qed.

(* The words a new task's set-up writes. *)
Lemma derive_x86_ok w win aw fin m h n : (w = 4 \/ w = 8) -> (win = true -> w = 8) ->
  0 < h -> h mod 16 = 0 -> h + n < space w -> (if win then 320 else 88) <= n ->
  let t := floor16 (h + n - 32) in
  exists m', derive_x86 w win aw fin m h n = Ok m' /\ tib m' = tib m /\ reg m' = reg m /\ fp m' = fp m /\
    h + n - 48 < t <= h + n - 32 /\ t mod 16 = 0 /\
    mem m' h = t - 2 * w /\ mem m' (t - 2 * w) = aw /\ mem m' (t - w) = fin /\
    (win = true -> mem m' (h + 240) = h + n /\ mem m' (h + 248) = h) /\
    (forall a, a <> h -> a <> t - w -> a <> t - 2 * w ->
      (win = true -> a <> h + 240 /\ a <> h + 248) -> mem m' a = mem m a).
Proof.
  intros Hw Hwin H1 H2 H3 H4 t. change (space w) with (top_of w) in H3.
  assert (HM : 32 < top_of w) by (unfold top_of; destruct Hw as [->| ->]; vm_compute; reflexivity).
  destruct (floor16_spec (h + n - 32)) as (A1 & A2). fold t in A1, A2.
  assert (E1 : align_down (((h + n) mod top_of w - 32) mod top_of w) = t).
  { unfold t. rewrite align_down_floor. f_equal. rewrite (Z.mod_small (h + n)) by (destruct win; lia).
    apply Z.mod_small. destruct win; lia. }
  assert (E2 : (t - w) mod top_of w = t - w) by (apply Z.mod_small; destruct win, Hw; lia).
  assert (E3 : (t - w - w) mod top_of w = t - 2 * w).
  { rewrite Z.mod_small by (destruct win, Hw; lia). lia. }
  assert (E4 : (t - w) mod w = 0) by (clear - Hw A1; destruct Hw as [->| ->]; lia).
  assert (E5 : (t - 2 * w) mod w = 0) by (clear - Hw A1; destruct Hw as [->| ->]; lia).
  assert (E6 : h mod w = 0) by (clear - Hw H2; destruct Hw as [->| ->]; lia).
  unfold derive_x86. destruct (Z.eqb_spec h 0); [lia|]. cbv zeta.
  rewrite E1, E2, E3. rewrite (st_ok w m (t - w)) by exact E4. cbn [bind].
  rewrite st_ok by exact E5. cbn [bind]. rewrite st_ok by exact E6. cbn [bind].
  destruct win.
  - assert (w = 8) by (apply Hwin; reflexivity). subst w.
    rewrite st_ok by (clear - H2; lia). cbn [bind]. rewrite st_ok by (clear - H2; lia).
    eexists; split; [reflexivity|]. cbn [with_mem mem tib reg fp].
    replace (h + 30 * 8) with (h + 240) by lia. replace (h + 31 * 8) with (h + 248) by lia.
    rewrite (Z.mod_small (h + n)) by lia.
    split; [reflexivity|]. split; [reflexivity|]. split; [reflexivity|].
    split; [clear - A2; lia|]. split; [exact A1|]. clear E1 E2 E3 E4 E5 E6 A1 H2 HM H3.
    split; [rewrite !mset_other by lia; apply mset_same|].
    split; [rewrite !mset_other by lia; apply mset_same|].
    split; [rewrite !mset_other by lia; apply mset_same|].
    split; [intros _; split; [rewrite mset_other by lia|]; apply mset_same|].
    intros a B1 B2 B3 B4. specialize (B4 eq_refl). destruct B4.
    rewrite !mset_other by assumption. reflexivity.
  - eexists; split; [reflexivity|]. cbn [with_mem mem tib reg fp].
    split; [reflexivity|]. split; [reflexivity|]. split; [reflexivity|].
    split; [clear - A2; lia|]. split; [exact A1|]. clear E1 E2 E3 E4 E5 E6 A1 H2 HM H3.
    split; [apply mset_same|].
    split; [rewrite mset_other by (destruct Hw; lia); apply mset_same|].
    split; [rewrite !mset_other by (destruct Hw; lia); apply mset_same|].
    split; [discriminate|].
    intros a B1 B2 B3 _. rewrite !mset_other by assumption. reflexivity.
Qed.

Lemma derive_a64_ok win fn m h n :
  0 < h -> h mod 16 = 0 -> h + n < space 8 -> 208 <= n ->
  let t := floor16 (h + n) in
  exists m', derive_a64 win fn m h n = Ok m' /\ tib m' = tib m /\ reg m' = reg m /\ fp m' = fp m /\
    h + n - 16 < t <= h + n /\ t mod 16 = 0 /\
    mem m' h = t /\ mem m' (h + 8) = fn /\ mem m' (h + 96) = t /\
    (win = true -> mem m' (h + 176) = h + n /\ mem m' (h + 184) = h) /\
    (forall a, a <> h -> a <> h + 8 -> a <> h + 96 ->
      (win = true -> a <> h + 176 /\ a <> h + 184) -> mem m' a = mem m a).
Proof.
  intros H1 H2 H3 H4 t. change (space 8) with (top_of 8) in H3.
  destruct (floor16_spec (h + n)) as (A1 & A2). fold t in A1, A2.
  assert (HM : 32 < top_of 8) by (vm_compute; reflexivity).
  assert (E1 : align_down ((h + n) mod top_of 8) = t).
  { unfold t. rewrite align_down_floor. f_equal. apply Z.mod_small; lia. }
  unfold derive_a64. destruct (Z.eqb_spec h 0); [lia|]. cbv zeta. rewrite E1.
  rewrite (Z.mod_small (h + n)) by lia.
  rewrite (st_ok 8 m h) by (clear - H2; lia). cbn [bind].
  rewrite st_ok by (clear - H2; lia). cbn [bind].
  rewrite st_ok by (clear - H2; lia). cbn [bind].
  destruct win.
  - rewrite st_ok by (clear - H2; lia). cbn [bind]. rewrite st_ok by (clear - H2; lia).
    eexists; split; [reflexivity|]. cbn [with_mem mem tib reg fp].
    replace (h + 12 * 8) with (h + 96) by lia.
    replace (h + 22 * 8) with (h + 176) by lia. replace (h + 23 * 8) with (h + 184) by lia.
    split; [reflexivity|]. split; [reflexivity|]. split; [reflexivity|].
    split; [clear - A2; lia|]. split; [exact A1|]. clear E1 A1 H2 HM H3.
    split; [rewrite !mset_other by lia; apply mset_same|].
    split; [rewrite !mset_other by lia; apply mset_same|].
    split; [rewrite !mset_other by lia; apply mset_same|].
    split; [intros _; split; [rewrite mset_other by lia|]; apply mset_same|].
    intros a B1 B2 B3 B4. specialize (B4 eq_refl). destruct B4.
    rewrite !mset_other by assumption. reflexivity.
  - eexists; split; [reflexivity|]. cbn [with_mem mem tib reg fp].
    replace (h + 12 * 8) with (h + 96) by lia.
    split; [reflexivity|]. split; [reflexivity|]. split; [reflexivity|].
    split; [clear - A2; lia|]. split; [exact A1|]. clear E1 A1 H2 HM H3.
    split; [rewrite !mset_other by lia; apply mset_same|].
    split; [rewrite !mset_other by lia; apply mset_same|].
    split; [apply mset_same|].
    split; [discriminate|].
    intros a B1 B2 B3 _. rewrite !mset_other by assumption. reflexivity.
Qed.

(* ---- the four conventions ---- *)

(* SystemV amd64: arguments in rdi, rsi; rbx, rbp, r12-r15 are kept. *)
Definition sysv (aw fin : Z) : arch :=
  mkA 8 64 4 7 6 None (map KReg [3; 5; 12; 13; 14; 15]%nat) NoTib
      swap_sysv (derive_x86 8 false aw fin) aw 32.

(* i386 fastcall: arguments in ecx, edx; ebx, ebp, esi, edi are kept. *)
Definition i386 (aw fin : Z) : arch :=
  mkA 4 24 4 1 2 None (map KReg [3; 5; 6; 7]%nat) NoTib
      swap_i386 (derive_x86 4 false aw fin) aw 32.

(* Win64: arguments in rcx, rdx; rbx, rbp, rdi, rsi, r12-r15 and xmm6-xmm15
   are kept; the stack base and limit of the thread follow the stack. *)
Definition win64 (aw fin : Z) : arch :=
  mkA 8 256 4 1 2 None
      (map KReg [3; 5; 6; 7; 12; 13; 14; 15]%nat
       ++ map KLow [6; 7; 8; 9; 10; 11; 12; 13; 14; 15]%nat
       ++ map KHigh [6; 7; 8; 9; 10; 11; 12; 13; 14; 15]%nat ++ [KTib 8; KTib 16]) SelfTib
      swap_win64 (derive_x86 8 true aw fin) aw 32.

(* AArch64: arguments in x0, x1, return address in x30; x19-x29 and the low
   halves of v8-v15 are kept. *)
Definition aarch64 (fn : Z) : arch :=
  mkA 8 176 31 0 1 (Some 30%nat)
      (map KReg [19; 20; 21; 22; 23; 24; 25; 26; 27; 28; 29]%nat
       ++ map KLow [8; 9; 10; 11; 12; 13; 14; 15]%nat) NoTib
      (swap_a64 false) (derive_a64 false fn) fn 0.

(* AArch64 on Windows: x18 is the thread information block; the area has 192
   bytes. *)
Definition aarch64_win (fn : Z) : arch :=
  mkA 8 192 31 0 1 (Some 30%nat)
      (map KReg [19; 20; 21; 22; 23; 24; 25; 26; 27; 28; 29]%nat
       ++ map KLow [8; 9; 10; 11; 12; 13; 14; 15]%nat ++ [KTib 8; KTib 16]) (RegTib 18)
      (swap_a64 true) (derive_a64 true fn) fn 0.

Definition offs_sysv : list Z := [16; 8; 24; 32; 40; 48].
Definition offs_i386 : list Z := [16; 4; 8; 12].
Definition offs_win64 : list Z :=
  [32; 8; 16; 24; 40; 48; 56; 64;
   80; 96; 112; 128; 144; 160; 176; 192; 208; 224;
   88; 104; 120; 136; 152; 168; 184; 200; 216; 232; 240; 248].
Definition offs_a64 : list Z :=
  [16; 24; 32; 40; 48; 56; 64; 72; 80; 88; 96; 112; 120; 128; 136; 144; 152; 160; 168].

Lemma sysv_switch aw fin : switch_ok (sysv aw fin) offs_sysv.
Proof. eapply check_switch; [reflexivity|]. vm_compute. reflexivity. Qed.
Lemma i386_switch aw fin : switch_ok (i386 aw fin) offs_i386.
Proof. eapply check_switch; [reflexivity|]. vm_compute. reflexivity. Qed.
Lemma win64_switch aw fin : switch_ok (win64 aw fin) offs_win64.
Proof. eapply check_switch; [reflexivity|]. vm_compute. reflexivity. Qed.
Lemma aarch64_switch fn : switch_ok (aarch64 fn) offs_a64.
Proof. eapply check_switch; [reflexivity|]. vm_compute. reflexivity. Qed.
Lemma aarch64_win_switch fn : switch_ok (aarch64_win fn) (offs_a64 ++ [176; 184]).
Proof. eapply check_switch; [reflexivity|]. vm_compute. reflexivity. Qed.

Lemma derive_x86_gen A offs w win aw fin : (w = 4 \/ w = 8) -> (win = true -> w = 8) ->
  a_w A = w -> a_ret A = None -> a_derive A = derive_x86 w win aw fin -> a_entry A = aw ->
  a_room A = 32 -> (if win then 256 else 24) <= a_area A ->
  derive_ok A offs.
Proof.
  intros Hw Hwin EW ER ED EE EO EA m h n H1 H2 H3 H4. rewrite ED. rewrite EW in H3.
  destruct (derive_x86_ok w win aw fin m h n Hw Hwin H1 H2 H3) as
    (m' & Ed & Et & _ & _ & T1 & T2 & M1 & M2 & M3 & M4 & Mf).
  { destruct win; lia. }
  unfold first_ctx. rewrite ER, EO. simpl.
  set (t := floor16 (h + n - 32)) in *.
  exists m'. split; [exact Ed|]. split; [exact Et|].
  split; [|split].
  - eexists. unfold holds. rewrite ER. simpl. split; [|reflexivity]. rewrite EE, EW.
    replace (t - w - w) with (t - 2 * w) by lia. split; [exact M1|exact M2].
  - intros _ _. rewrite EW. split; [|split].
    + destruct win, Hw; lia.
    + destruct Hw; lia.
    + clear - Hw T2. destruct Hw as [->| ->]; lia.
  - intros a Ha. apply Mf; destruct win, Hw; lia.
Qed.

Lemma derive_a64_gen A offs win fn : a_w A = 8 -> a_ret A <> None -> a_derive A = derive_a64 win fn ->
  a_entry A = fn -> a_room A = 0 -> (if win then 192 else 176) <= a_area A -> derive_ok A offs.
Proof.
  intros EW ER ED EE EO EA m h n H1 H2 H3 H4. rewrite ED. rewrite EW in H3.
  destruct (derive_a64_ok win fn m h n H1 H2 H3) as
    (m' & Ed & Et & _ & _ & T1 & T2 & M1 & M2 & M3 & M4 & Mf).
  { destruct win; lia. }
  destruct (a_ret A) as [r|] eqn:Er; [|congruence].
  unfold first_ctx. rewrite Er, EO.
  exists m'. split; [exact Ed|]. split; [exact Et|].
  split; [|split].
  - eexists. unfold holds. rewrite Er. simpl. split; [|reflexivity]. rewrite EE.
    replace (floor16 (h + n - 0) - 0) with (floor16 (h + n)) by (rewrite !Z.sub_0_r; reflexivity).
    split; [exact M1|exact M2].
  - intros C. discriminate.
  - intros a Ha. apply Mf; destruct win; lia.
Qed.

Lemma offs_ok_b A offs :
  forallb (fun o => (0 <=? o) && (o <? a_area A)) offs && (8 <? a_area A) && (0 <? a_w A) = true ->
  offs_ok A offs.
Proof.
  intros H. apply andb_true_iff in H as (H & H3). apply andb_true_iff in H as (H1 & H2).
  rewrite forallb_forall in H1. split; [|split; lia].
  intros o Hin. specialize (H1 o Hin). lia.
Qed.

Lemma sysv_plays aw fin l cur m : starts (sysv aw fin) cur m ->
  legal (sysv aw fin) (fun _ => None) cur m l -> plays (sysv aw fin) (fun _ => None) cur m l.
Proof.
  intros HS. apply plays_legal with (offs := offs_sysv).
  - apply offs_ok_b. vm_compute. reflexivity.
  - apply sysv_switch.
  - eapply derive_x86_gen with (w := 8) (win := false); try reflexivity; simpl; auto; try discriminate; lia.
  - apply starts_inv, HS.
Qed.

Lemma i386_plays aw fin l cur m : starts (i386 aw fin) cur m ->
  legal (i386 aw fin) (fun _ => None) cur m l -> plays (i386 aw fin) (fun _ => None) cur m l.
Proof.
  intros HS. apply plays_legal with (offs := offs_i386).
  - apply offs_ok_b. vm_compute. reflexivity.
  - apply i386_switch.
  - eapply derive_x86_gen with (w := 4) (win := false); try reflexivity; simpl; auto; try discriminate; lia.
  - apply starts_inv, HS.
Qed.

Lemma win64_plays aw fin l cur m : starts (win64 aw fin) cur m ->
  legal (win64 aw fin) (fun _ => None) cur m l -> plays (win64 aw fin) (fun _ => None) cur m l.
Proof.
  intros HS. apply plays_legal with (offs := offs_win64).
  - apply offs_ok_b. vm_compute. reflexivity.
  - apply win64_switch.
  - eapply derive_x86_gen with (w := 8) (win := true); try reflexivity; simpl; auto; lia.
  - apply starts_inv, HS.
Qed.

Lemma aarch64_plays fn l cur m : starts (aarch64 fn) cur m ->
  legal (aarch64 fn) (fun _ => None) cur m l -> plays (aarch64 fn) (fun _ => None) cur m l.
Proof.
  intros HS. apply plays_legal with (offs := offs_a64).
  - apply offs_ok_b. vm_compute. reflexivity.
  - apply aarch64_switch.
  - eapply derive_a64_gen with (win := false); try reflexivity; simpl; try discriminate; lia.
  - apply starts_inv, HS.
Qed.

Lemma aarch64_win_plays fn l cur m : starts (aarch64_win fn) cur m ->
  legal (aarch64_win fn) (fun _ => None) cur m l -> plays (aarch64_win fn) (fun _ => None) cur m l.
Proof.
  intros HS. apply plays_legal with (offs := offs_a64 ++ [176; 184]).
  - apply offs_ok_b. vm_compute. reflexivity.
  - apply aarch64_win_switch.
  - eapply derive_a64_gen with (win := true); try reflexivity; simpl; try discriminate; lia.
  - apply starts_inv, HS.
Qed.
