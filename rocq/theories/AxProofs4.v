(* One switch by itself, the start of a new task, a switch to oneself. *)
From Coq Require Import ZArith List Bool Lia.
From Verif Require Import Base AxModel AxProofs AxProofs2 AxProofs3.
Import ListNotations.
Open Scope Z_scope.

(* A caller in p switches to h: the two areas, the stacks of both and the
   thread information block are where they may be. *)
Definition calls (A : arch) (m : mach) (p h : Z) : Prop :=
  reg m (a_first A) = h /\ reg m (a_second A) = p /\ tib_ok A m /\
  area_placed A (tib m) p /\ area_placed A (tib m) h /\ apart A p h /\ tib_placed A (tib m) /\
  (a_ret A = None ->
   forall q, q = reg m (a_sp A) \/ q = mem m h ->
   0 <= q /\ q + a_w A < space (a_w A) /\ q mod a_w A = 0 /\
   ~ (p <= q < p + a_area A) /\ ~ (h <= q < h + a_area A) /\
   (has_tib A = true -> ~ (tib m <= q < tib m + 56))).

(* What the words of a register area stand for, whatever they are. *)
Definition read_ctx (A : arch) (offs : list Z) (m : mach) (h : Z) : ctx :=
  match a_ret A with
  | None => mkC (mem m (mem m h)) (mem m h + a_w A) (map (fun o => mem m (h + o)) offs)
  | Some _ => mkC (mem m (h + 8)) (mem m h) (map (fun o => mem m (h + o)) offs)
  end.

Lemma one_switch A offs m p h : 0 < a_area A -> switch_ok A offs -> calls A m p h ->
  exists m' pc, a_swap A m = Ok (m', pc) /\ resumed A m' pc (read_ctx A offs m h) /\ tib m' = tib m /\
    holds A offs m' p (ctx_of A m) /\
    forall a, ~ (p <= a < p + a_area A) ->
      (has_tib A = true -> a <> tib m + 8 /\ a <> tib m + 16) -> mem m' a = mem m a.
Proof.
  intros Ha0 HS (C1 & C2 & C3 & C4 & C5 & C6 & C7 & C8).
  assert (Hne : p <> h) by (unfold apart in C6; lia).
  apply (HS m p h (read_ctx A offs m h)); try assumption.
  - unfold holds, read_ctx. destruct (a_ret A) eqn:Er; simpl; [auto|].
    replace (mem m h + a_w A - a_w A) with (mem m h) by lia. auto.
  - intros Er. unfold read_ctx. rewrite Er. simpl.
    destruct (C8 Er (mem m h) (or_intror eq_refl)) as (D1 & D2 & D3 & D4 & D5 & D6).
    replace (mem m h + a_w A - a_w A) with (mem m h) by lia.
    split; [exact D1|]. split; [exact D2|]. split; [exact D3|]. split; [|exact D6].
    intros k [->| ->]; assumption.
  - intros Er _. unfold ctx_of. rewrite Er. simpl.
    destruct (C8 Er (reg m (a_sp A)) (or_introl eq_refl)) as (D1 & D2 & D3 & D4 & D5 & D6).
    replace (reg m (a_sp A) + a_w A - a_w A) with (reg m (a_sp A)) by lia.
    split; [exact D1|]. split; [exact D2|]. split; [exact D3|]. split; [|exact D6].
    intros k [->| ->]; assumption.
Qed.

Lemma only_area A offs m p h : 0 < a_area A -> switch_ok A offs -> calls A m p h ->
  exists m' pc, a_swap A m = Ok (m', pc) /\ tib m' = tib m /\
    forall a, ~ (p <= a < p + a_area A) ->
      (has_tib A = true -> a <> tib m + 8 /\ a <> tib m + 16) -> mem m' a = mem m a.
Proof.
  intros H1 H2 H3. destruct (one_switch A offs m p h H1 H2 H3) as (m' & pc & E1 & _ & E2 & _ & E3).
  exists m', pc. auto.
Qed.

(* On Windows AArch64 the register area of 176 bytes is followed by the
   fields stack_base (at 176) and magic_number (at 184). *)
Lemma winarm_fields fn m p h : calls (aarch64_win fn) m p h ->
  exists m' pc, swap_a64 true m = Ok (m', pc) /\
    mem m' (p + 176) = mem m (tib m + 8) /\ mem m' (p + 184) = mem m (tib m + 16) /\
    mem m' (tib m + 8) = mem m (h + 176) /\ mem m' (tib m + 16) = mem m (h + 184).
Proof.
  intros HC.
  destruct (one_switch (aarch64_win fn) (offs_a64 ++ [176; 184]) m p h ltac:(simpl; lia) (aarch64_win_switch fn) HC)
    as (m' & pc & E1 & E2 & E3 & E4 & _).
  exists m', pc. split; [exact E1|].
  destruct E4 as (_ & E4). unfold ctx_of, offs_a64 in E4. simpl in E4.
  destruct E2 as (_ & _ & E2). unfold read_ctx, offs_a64 in E2. simpl in E2. rewrite E3 in E2.
  injection E4. injection E2. intros. auto.
Qed.

(* ---- new tasks ---- *)

Lemma fresh_x86 A offs w win aw fin : (w = 4 \/ w = 8) -> (win = true -> w = 8) ->
  a_w A = w -> a_ret A = None -> a_derive A = derive_x86 w win aw fin ->
  (if win then 256 else 24) <= a_area A -> switch_ok A offs ->
  (has_tib A = true -> win = true) ->
  forall m h n p m1 m2,
  0 < h -> h mod 16 = 0 -> h + n < space w -> a_area A + 64 <= n ->
  a_derive A m h n = Ok m1 ->
  (forall a, h <= a < h + n -> mem m2 a = mem m1 a) ->
  reg m2 (a_first A) = h -> reg m2 (a_second A) = p -> tib_ok A m2 ->
  area_placed A (tib m2) p -> (p + a_area A <= h \/ h + n <= p) ->
  (has_tib A = true -> tib m2 + 56 <= h \/ h + n <= tib m2) -> tib_placed A (tib m2) ->
  (let q := reg m2 (a_sp A) in
   0 <= q /\ q + w < space w /\ q mod w = 0 /\
   ~ (p <= q < p + a_area A) /\ ~ (h <= q < h + n) /\
   (has_tib A = true -> ~ (tib m2 <= q < tib m2 + 56))) ->
  exists t m' pc, t mod 16 = 0 /\ h + n - 48 < t <= h + n - 32 /\
    a_swap A m2 = Ok (m', pc) /\ pc = aw /\ reg m' (a_sp A) = t - w /\ mem m' (t - w) = fin /\
    (win = true -> has_tib A = true -> a_kept A <> [] ->
     exists vals, map (get m') (a_kept A) = vals /\ vals = map (fun o => mem m2 (h + o)) offs).
Proof.
  intros Hw Hwin EW ER ED EA HS Htw m h n p m1 m2 H1 H2 H3 H4 Hd Hk Hf Hs Ht Hp Hph Hti Htp Hq.
  cbv zeta in Hq. destruct Hq as (Q1 & Q2 & Q3 & Q4 & Q5 & Q6).
  rewrite ED in Hd.
  destruct (derive_x86_ok w win aw fin m h n Hw Hwin H1 H2 H3) as
    (m' & Ed & Et & _ & _ & T1 & T2 & M1 & M2 & M3 & M4 & Mf).
  { destruct win; lia. }
  rewrite Ed in Hd. injection Hd as <-.
  set (t := floor16 (h + n - 32)) in *.
  assert (Ha0 : 0 < a_area A) by (clear - EA; destruct win; lia).
  assert (B1 : h <= h < h + n) by (clear - Ha0 H4; lia).
  assert (B2 : h + a_area A <= t - 2 * w /\ t - w + w <= h + n /\ 0 < w)
    by (clear - T1 H4 Hw EA; destruct win, Hw; lia).
  assert (HC : calls A m2 p h).
  { split; [exact Hf|]. split; [exact Hs|]. split; [exact Ht|]. split; [exact Hp|].
    split. { split; [exact H1|]. split; [exact H2|]. split; [rewrite EW; clear - H3 H4; lia|].
      intros E. specialize (Hti E). clear - Hti H4. lia. }
    split. { unfold apart. clear - Hph H4. lia. }
    split; [exact Htp|]. intros _ q [->| ->]; rewrite EW.
    - repeat (split; [assumption|]). split; [clear - Q5 H4; lia|exact Q6].
    - rewrite Hk by exact B1. rewrite M1.
      split; [clear - B2 H1 H4 Ha0; lia|]. split; [clear - B2 H3; lia|].
      split; [clear - Hw T2; destruct Hw as [->| ->]; lia|].
      split; [clear - Hph B2 H4 Ha0; lia|]. split; [clear - B2; lia|].
      intros E. specialize (Hti E). clear - Hti B2 H4 Ha0. lia. }
  destruct (one_switch A offs m2 p h Ha0 HS HC) as (m3 & pc & S1 & (R1 & R2 & R3) & S2 & S3 & S4).
  unfold read_ctx in R1, R2, R3. rewrite ER in R1, R2, R3. simpl in R1, R2, R3.
  exists t, m3, pc. split; [exact T2|]. split; [exact T1|]. split; [exact S1|].
  rewrite (Hk h B1), M1 in R1, R2.
  split. { rewrite R1. rewrite Hk by (clear - B2 H1 H4 Ha0; lia). exact M2. }
  split. { rewrite R2, EW. clear. lia. }
  split.
  { rewrite S4.
    - rewrite Hk by (clear - B2 H1 H4 Ha0; lia). exact M3.
    - clear - Hph B2 H4 Ha0. lia.
    - intros E. specialize (Hti E). clear - Hti B2 H4 Ha0. lia. }
  intros _ _ _. exists (map (fun o => mem m2 (h + o)) offs). auto.
Qed.

(* AArch64: a new task starts in its function on an aligned stack. *)
Lemma fresh_a64 fn m h n p m1 m2 :
  0 < h -> h mod 16 = 0 -> h + n < space 8 -> 176 + 64 <= n ->
  derive_a64 false fn m h n = Ok m1 ->
  (forall a, h <= a < h + n -> mem m2 a = mem m1 a) ->
  reg m2 0 = h -> reg m2 1 = p -> 0 < p -> p mod 16 = 0 -> p + 176 < space 8 ->
  (p + 176 <= h \/ h + n <= p) ->
  exists m' pc, swap_a64 false m2 = Ok (m', pc) /\ pc = fn /\ reg m' 31 mod 16 = 0 /\
    reg m' 29 = reg m' 31 /\ h + n - 16 < reg m' 31 <= h + n.
Proof.
  intros H1 H2 H3 H4 Hd Hk Hf Hs Hp1 Hp2 Hp3 Hph.
  destruct (derive_a64_ok false fn m h n H1 H2 H3 ltac:(lia)) as
    (m' & Ed & Et & _ & _ & T1 & T2 & M1 & M2 & M3 & M4 & Mf).
  rewrite Ed in Hd. injection Hd as <-.
  assert (HC : calls (aarch64 fn) m2 p h).
  { split; [exact Hf|]. split; [exact Hs|]. split; [exact I|].
    split. { repeat split; simpl; try assumption; discriminate. }
    split. { repeat split; simpl; try assumption; [lia|discriminate]. }
    split. { unfold apart. simpl. lia. }
    split; [intros E; discriminate|]. intros E; discriminate. }
  destruct (one_switch (aarch64 fn) offs_a64 m2 p h ltac:(simpl; lia) (aarch64_switch fn) HC)
    as (m3 & pc & S1 & (R1 & R2 & R3) & _).
  unfold read_ctx, offs_a64 in R1, R2, R3. simpl in R1, R2, R3.
  exists m3, pc. split; [exact S1|].
  rewrite R1, R2. injection R3. intros.
  repeat match goal with H : reg m3 29%nat = _ |- _ => rewrite H; clear H end.
  rewrite !Hk by lia. rewrite M1, M2, M3. auto.
Qed.

(* ---- a switch to oneself ---- *)

Definition lim_self (A : arch) (t : root) : Z :=
  match t with RH => 0 | _ => lim_of A t end.

Definition s_init_self (A : arch) : sst :=
  mkS ([(a_first A, VRoot RP 0); (a_second A, VRoot RP 0)]
       ++ match a_ret A with None => [(a_sp A, VRoot RS 0)] | _ => [] end
       ++ match a_tib A with RegTib r => [(r, VRoot RT 0)] | _ => [] end) []
      (match a_tib A with SelfTib => [(RT, 48, VRoot RT 0)] | _ => [] end).

Definition store_self (A : arch) (e : root * Z * sval) : bool :=
  let '(t, o, v) := e in
  match t with
  | RP => true
  | RT => (sval_eqb v (VMem RT o) || (sval_eqb v (VRoot RT 0) && (o =? 48)
          && match a_tib A with SelfTib => true | _ => false end))
  | _ => false
  end.

Definition check_self (A : arch) (p : option (list ins)) : bool :=
  match p with
  | None => false
  | Some prog =>
    match sexec (a_w A) (lim_self A) prog (s_init_self A) with
    | None => false
    | Some (s, pv) =>
      let w := a_w A in
      ((w =? 4) || (w =? 8)) && (a_area A mod w =? 0) && (0 <? a_area A) &&
      forallb (k_in A) (a_kept A) &&
      forallb (fun k => sval_eqb (s_new s k) (s_old k)) (a_kept A) &&
      forallb (store_self A) (smem s) &&
      (match a_ret A with
       | None => sval_eqb pv (VMem RS 0) && sval_eqb (rlook (sreg s) (a_sp A)) (VRoot RS w)
       | Some r => sval_eqb pv (VReg r) && sval_eqb (rlook (sreg s) (a_sp A)) (VReg (a_sp A))
       end)
    end
  end.

Definition calls_self (A : arch) (m : mach) (p : Z) : Prop :=
  reg m (a_first A) = p /\ reg m (a_second A) = p /\ tib_ok A m /\
  area_placed A (tib m) p /\ tib_placed A (tib m) /\
  (a_ret A = None ->
   let q := reg m (a_sp A) in
   0 <= q /\ q + a_w A < space (a_w A) /\ q mod a_w A = 0 /\
   ~ (p <= q < p + a_area A) /\ (has_tib A = true -> ~ (tib m <= q < tib m + 56))).

(* It is a plain return. *)
Definition self_ok (A : arch) : Prop :=
  forall m p, calls_self A m p ->
  exists m' pc, a_swap A m = Ok (m', pc) /\ resumed A m' pc (ctx_of A m) /\ tib m' = tib m /\
    forall a, ~ (p <= a < p + a_area A) -> mem m' a = mem m a.

Lemma check_self_ok A p :
  a_swap A = run_code (a_w A) p -> check_self A p = true -> self_ok A.
Proof.
  intros HS HC. unfold check_self in HC. destruct p as [prog|]; [|discriminate].
  destruct (sexec (a_w A) (lim_self A) prog (s_init_self A)) as [[s pv]|] eqn:Ex; [|discriminate].
  cbv zeta in HC.
  apply andb_true_iff in HC as (HC & Hret). apply andb_true_iff in HC as (HC & Hst).
  apply andb_true_iff in HC as (HC & Hkk). apply andb_true_iff in HC as (HC & Hkin).
  apply andb_true_iff in HC as (HC & Har1). apply andb_true_iff in HC as (Hw0 & Har0).
  apply orb_true_iff in Hw0. rewrite !Z.eqb_eq in Hw0. apply Z.eqb_eq in Har0. apply Z.ltb_lt in Har1.
  rewrite forallb_forall in Hkin, Hkk, Hst.
  intros m q (C1 & C2 & C3 & (P1 & P2 & P3 & P4) & C5 & C6).
  set (base := fun t => match t with
    | RH => 0 | RP => q | RS => if a_ret A then 0 else reg m (a_sp A)
    | RT => if has_tib A then tib m else 0 end).
  assert (Htop : 0 < space (a_w A)) by (unfold space; apply Z.pow_pos_nonneg; lia).
  assert (HL : laid (a_w A) (lim_self A) base).
  { unfold laid. split; [|split].
    - change top_of with space. intros [| | |]; simpl.
      + clear - Hw0 Htop. repeat split; try lia; destruct Hw0 as [E|E]; rewrite E; reflexivity.
      + clear - P1 P2 P3 Har1 Hw0. repeat split; try lia; destruct Hw0 as [E|E]; rewrite E; lia.
      + destruct (a_ret A) eqn:Er; [repeat split; try lia; apply Z.mod_0_l; lia|].
        destruct (C6 eq_refl) as (Q1 & Q2 & Q3 & _). clear - Q1 Q2 Q3 Hw0. repeat split; lia.
      + destruct (has_tib A) eqn:Et; [|repeat split; try lia; apply Z.mod_0_l; lia].
        destruct (C5 Et) as (Q1 & Q2 & Q3). clear - Hw0 Q1 Q2 Q3.
        repeat split; try lia; destruct Hw0 as [E|E]; rewrite E; lia.
    - intros [| | |]; simpl; intros E; try discriminate; [reflexivity|assumption].
    - assert (Hs : forall o o', 0 <= o < a_area A ->
        0 <= o' < (if a_ret A then 0 else a_w A) ->
        q + o <> (if a_ret A then 0 else reg m (a_sp A)) + o').
      { intros o o' Ho Ho' E. destruct (a_ret A) eqn:Er; [lia|].
        destruct (C6 eq_refl) as (Q1 & Q2 & Q3 & Q4 & _). cbv zeta in Q4.
        apply Q4. clear - Hw0 E Ho Ho' Q3 P2 Har0.
        destruct Hw0 as [E1|E1]; rewrite E1 in *; lia. }
      assert (Ht : forall o o', 0 <= o < a_area A -> 0 <= o' < (if has_tib A then 56 else 0) ->
        q + o <> (if has_tib A then tib m else 0) + o').
      { intros o o' Ho Ho'. destruct (has_tib A); [|lia]. specialize (P4 eq_refl). clear - P4 Ho Ho'. lia. }
      assert (Hu : forall o o', 0 <= o < (if a_ret A then 0 else a_w A) ->
        0 <= o' < (if has_tib A then 56 else 0) ->
        (if a_ret A then 0 else reg m (a_sp A)) + o <> (if has_tib A then tib m else 0) + o').
      { intros o o' Ho Ho' E. destruct (a_ret A) eqn:Er; [lia|]. destruct (has_tib A) eqn:Et; [|lia].
        destruct (C6 eq_refl) as (Q1 & Q2 & Q3 & _ & Q5). specialize (Q5 eq_refl).
        destruct (C5 Et) as (_ & _ & Q6).
        apply Q5. clear - Hw0 E Ho Ho' Q3 Q6. destruct Hw0 as [E1|E1]; rewrite E1 in *; lia. }
      intros t t' o o' Htt Ho Ho'.
      destruct t, t'; try congruence; simpl in Ho, Ho' |- *;
        first [ clear - Ho Ho'; lia
              | apply Hs; assumption
              | apply not_eq_sym, Hs; assumption
              | apply Ht; assumption
              | apply not_eq_sym, Ht; assumption
              | apply Hu; assumption
              | apply not_eq_sym, Hu; assumption ]. }
  assert (HR : rep (a_w A) (lim_self A) m base (s_init_self A) m).
  { unfold rep. split; [|split; [|split; [|split; [|split]]]].
    - intros r. unfold s_init_self; simpl.
      destruct (Nat.eqb_spec r (a_first A)); [subst r; simpl; clear - C1; lia|].
      destruct (Nat.eqb_spec r (a_second A)); [subst r; simpl; clear - C2; lia|].
      unfold tib_ok in C3. unfold base, has_tib.
      destruct (a_ret A) eqn:Er; simpl.
      + destruct (a_tib A) as [| |tr] eqn:Et; try reflexivity.
        simpl. destruct (Nat.eqb_spec r tr); [subst r|reflexivity]. simpl. clear - C3. lia.
      + destruct (Nat.eqb_spec r (a_sp A)); [subst r; simpl; clear; lia|].
        destruct (a_tib A) as [| |tr] eqn:Et; try reflexivity.
        simpl. destruct (Nat.eqb_spec r tr); [subst r|reflexivity]. simpl. clear - C3. lia.
    - intros x. simpl. destruct (fp m x); reflexivity.
    - intros a. symmetry. apply memv_out. intros t o v Hin Ha.
      unfold s_init_self in Hin; simpl in Hin.
      unfold tib_ok in C3. subst base. unfold has_tib in *.
      destruct (a_tib A) eqn:Et; try (destruct Hin; fail).
      destruct Hin as [Hin|[]].
      assert (t = RT /\ o = 48 /\ v = VRoot RT 0) as (-> & -> & ->) by (inversion Hin; auto).
      simpl in Ha |- *. rewrite Ha. clear - C3. lia.
    - intros t o v Hin. unfold s_init_self in Hin; simpl in Hin.
      destruct (a_tib A) eqn:Et; try (destruct Hin; fail).
      destruct Hin as [Hin|[]]. assert (t = RT /\ o = 48) as (-> & ->) by (inversion Hin; auto).
      apply inb_spec. simpl. unfold has_tib.
      rewrite Et. destruct Hw0 as [E|E]; rewrite E; repeat split; try lia; reflexivity.
    - reflexivity.
    - simpl. unfold base. destruct (has_tib A); [reflexivity|lia]. }
  destruct (sexec_sound _ _ _ _ _ Hw0 HL _ _ _ _ HR Ex) as (m' & Erun & HR').
  pose proof HR' as (Hr & Hf & Hm & Hi & Hti & _).
  exists m', (val m base pv).
  assert (Hlook : forall t o, inb (a_w A) (lim_self A) t o = true ->
    mem m' (base t + o) = val m base (mlook (smem s) t o)).
  { intros t o Hin. rewrite Hm. eapply memv_look; eauto. }
  split; [rewrite HS; exact Erun|].
  assert (Hv : map (get m') (a_kept A) = map (get m) (a_kept A)).
  { apply map_ext_in. intros k Hk. specialize (Hkin k Hk). specialize (Hkk k Hk).
    apply sval_eqb_eq in Hkk. destruct k; simpl in *.
    - rewrite Hr, Hkk. reflexivity.
    - rewrite Hf, Hkk. reflexivity.
    - rewrite Hf, Hkk. reflexivity.
    - assert (Hkin' : inb (a_w A) (lim_self A) RT o = true) by exact Hkin.
      pose proof (Hlook RT o Hkin') as Hlo. rewrite Hkk in Hlo. simpl in Hlo.
      apply inb_spec in Hkin. simpl in Hkin. rewrite Hti.
      destruct (has_tib A); [exact Hlo|clear - Hkin Hw0; destruct Hw0; lia]. }
  split; [|split; [exact Hti|]].
  - unfold resumed, ctx_of.
    destruct (a_ret A) as [r|] eqn:Er; apply andb_true_iff in Hret as (R1 & R2);
      apply sval_eqb_eq in R1; apply sval_eqb_eq in R2; subst pv; simpl.
    + split; [reflexivity|]. split; [rewrite Hr, R2; reflexivity|exact Hv].
    + split; [f_equal; clear; lia|]. split; [rewrite Hr, R2; simpl; reflexivity|exact Hv].
  - intros a Ha. rewrite Hm. apply memv_out. intros t o v Hin Eq.
    pose proof (Hst _ Hin) as Hs. pose proof (Hi _ _ _ Hin) as Hb. simpl in Hs.
    apply inb_spec in Hb. destruct t; simpl in Hs; try discriminate.
    + simpl in Eq, Hb. exfalso. clear - Eq Hb Hw0 Ha. destruct Hw0; lia.
    + apply orb_true_iff in Hs as [Hs|Hs].
      * apply sval_eqb_eq in Hs. subst v. simpl. rewrite Eq. reflexivity.
      * apply andb_true_iff in Hs as (S0 & S3). apply andb_true_iff in S0 as (S1 & S2).
        apply Z.eqb_eq in S2. apply sval_eqb_eq in S1. subst o v.
        unfold tib_ok in C3. simpl in Eq |- *. unfold base, has_tib in *.
        destruct (a_tib A); try discriminate. rewrite Eq. clear - C3. lia.
Qed.

Lemma sysv_self aw fin : self_ok (sysv aw fin).
Proof. eapply check_self_ok; [reflexivity|]. vm_compute. reflexivity. Qed.
Lemma i386_self aw fin : self_ok (i386 aw fin).
Proof. eapply check_self_ok; [reflexivity|]. vm_compute. reflexivity. Qed.
Lemma win64_self aw fin : self_ok (win64 aw fin).
Proof. eapply check_self_ok; [reflexivity|]. vm_compute. reflexivity. Qed.
Lemma aarch64_self fn : self_ok (aarch64 fn).
Proof. eapply check_self_ok; [reflexivity|]. vm_compute. reflexivity. Qed.

(* ---- the start of a task, in numbers ---- *)

(* The calls of a switch into a new task (block of n bytes at h), made by a
   task at p; the memory of the block is as the set-up left it. *)
Definition into_new (A : arch) (m m1 m2 : mach) (h n p : Z) : Prop :=
  0 < h /\ h mod 16 = 0 /\ h + n < space (a_w A) /\ a_area A + 64 <= n /\
  a_derive A m h n = Ok m1 /\
  (forall a, h <= a < h + n -> mem m2 a = mem m1 a) /\
  reg m2 (a_first A) = h /\ reg m2 (a_second A) = p /\ tib_ok A m2 /\
  area_placed A (tib m2) p /\ (p + a_area A <= h \/ h + n <= p) /\
  (has_tib A = true -> tib m2 + 56 <= h \/ h + n <= tib m2) /\ tib_placed A (tib m2) /\
  (let q := reg m2 (a_sp A) in
   0 <= q /\ q + a_w A < space (a_w A) /\ q mod a_w A = 0 /\
   ~ (p <= q < p + a_area A) /\ ~ (h <= q < h + n) /\
   (has_tib A = true -> ~ (tib m2 <= q < tib m2 + 56))).

Lemma start_sysv aw fin m m1 m2 h n p : into_new (sysv aw fin) m m1 m2 h n p ->
  exists m', swap_sysv m2 = Ok (m', aw) /\
    (reg m' 4 + 8) mod 16 = 0 /\ mem m' (reg m' 4) = fin /\
    h + n - 56 < reg m' 4 /\ reg m' 4 + 8 <= h + n - 32 /\
    (reg m' 4 + 8 + 8) mod 16 <> 0.
Proof.
  intros (H1 & H2 & H3 & H4 & H5 & H6 & H7 & H8 & H9 & H10 & H11 & H12 & H13 & H14).
  destruct (fresh_x86 (sysv aw fin) offs_sysv 8 false aw fin (or_intror eq_refl) ltac:(discriminate)
    eq_refl eq_refl eq_refl ltac:(simpl; lia) (sysv_switch aw fin) ltac:(discriminate)
    m h n p m1 m2 H1 H2 H3 H4 H5 H6 H7 H8 H9 H10 H11 H12 H13 H14)
    as (t & m' & pc & T1 & T2 & S1 & -> & S3 & S4 & _).
  exists m'. split; [exact S1|]. simpl in S3. rewrite S3. clear - T1 T2 S4.
  repeat split; try exact S4; lia.
Qed.

Lemma start_i386 aw fin m m1 m2 h n p : into_new (i386 aw fin) m m1 m2 h n p ->
  exists m', swap_i386 m2 = Ok (m', aw) /\
    (reg m' 4 + 4) mod 16 = 0 /\ mem m' (reg m' 4) = fin /\
    h + n - 56 < reg m' 4 /\ reg m' 4 + 4 <= h + n - 32 /\
    (reg m' 4 + 4 + 4) mod 16 <> 0.
Proof.
  intros (H1 & H2 & H3 & H4 & H5 & H6 & H7 & H8 & H9 & H10 & H11 & H12 & H13 & H14).
  destruct (fresh_x86 (i386 aw fin) offs_i386 4 false aw fin (or_introl eq_refl) ltac:(discriminate)
    eq_refl eq_refl eq_refl ltac:(simpl; lia) (i386_switch aw fin) ltac:(discriminate)
    m h n p m1 m2 H1 H2 H3 H4 H5 H6 H7 H8 H9 H10 H11 H12 H13 H14)
    as (t & m' & pc & T1 & T2 & S1 & -> & S3 & S4 & _).
  exists m'. split; [exact S1|]. simpl in S3. rewrite S3. clear - T1 T2 S4.
  repeat split; try exact S4; lia.
Qed.

(* Win64: a called function may also write the 32 bytes above its return
   address.  For the first function they are in the block; for the function
   it returns to they are not, if n is a multiple of 16. *)
Lemma start_win64 aw fin m m1 m2 h n p : into_new (win64 aw fin) m m1 m2 h n p ->
  exists m', swap_win64 m2 = Ok (m', aw) /\
    (reg m' 4 + 8) mod 16 = 0 /\ mem m' (reg m' 4) = fin /\
    h + n - 56 < reg m' 4 /\ reg m' 4 + 8 + 32 <= h + n /\
    (reg m' 4 + 8 + 8) mod 16 <> 0 /\
    (n mod 16 = 0 -> (reg m' 4 + 8) + 8 + 32 = h + n + 8) /\
    mem m' (tib m' + 8) = mem m2 (h + 240) /\ mem m' (tib m' + 16) = mem m2 (h + 248) /\
    mem m1 (h + 240) = h + n /\ mem m1 (h + 248) = h.
Proof.
  intros (H1 & H2 & H3 & H4 & H5 & H6 & H7 & H8 & H9 & H10 & H11 & H12 & H13 & H14).
  destruct (fresh_x86 (win64 aw fin) offs_win64 8 true aw fin (or_intror eq_refl) ltac:(reflexivity)
    eq_refl eq_refl eq_refl ltac:(simpl; lia) (win64_switch aw fin) ltac:(reflexivity)
    m h n p m1 m2 H1 H2 H3 H4 H5 H6 H7 H8 H9 H10 H11 H12 H13 H14)
    as (t & m' & pc & T1 & T2 & S1 & -> & S3 & S4 & S5).
  destruct (derive_x86_ok 8 true aw fin m h n (or_intror eq_refl) ltac:(reflexivity) H1 H2 H3
    ltac:(change (256 + 64 <= n) in H4; change (320 <= n); clear - H4; lia)) as (m1' & D1 & _ & _ & _ & _ & _ & _ & _ & _ & D2 & _).
  simpl in H5. rewrite D1 in H5. injection H5 as <-. specialize (D2 eq_refl).
  destruct (S5 eq_refl eq_refl ltac:(discriminate)) as (vals & V1 & V2). rewrite V2 in V1.
  exists m'. split; [exact S1|]. simpl in S3. rewrite S3.
  assert (V3 : mem m' (tib m' + 8) = mem m2 (h + 240) /\ mem m' (tib m' + 16) = mem m2 (h + 248)).
  { clear - V1. simpl in V1. injection V1. intros. auto. }
  clear - T1 T2 S4 D2 V3 H2.
  repeat match goal with |- _ /\ _ => split end; try exact S4; try tauto; lia.
Qed.

(* ---- what one switch writes ---- *)

Lemma area_sysv aw fin m p h : calls (sysv aw fin) m p h ->
  exists m' pc, swap_sysv m = Ok (m', pc) /\
    forall a, ~ (p <= a < p + 64) -> mem m' a = mem m a.
Proof.
  intros HC. destruct (only_area _ _ _ _ _ (eq_refl : 0 < a_area (sysv aw fin)) (sysv_switch aw fin) HC)
    as (m' & pc & E & _ & F).
  exists m', pc. split; [exact E|]. intros a Ha. apply F; [exact Ha|discriminate].
Qed.

Lemma area_i386 aw fin m p h : calls (i386 aw fin) m p h ->
  exists m' pc, swap_i386 m = Ok (m', pc) /\
    forall a, ~ (p <= a < p + 24) -> mem m' a = mem m a.
Proof.
  intros HC. destruct (only_area _ _ _ _ _ (eq_refl : 0 < a_area (i386 aw fin)) (i386_switch aw fin) HC)
    as (m' & pc & E & _ & F).
  exists m', pc. split; [exact E|]. intros a Ha. apply F; [exact Ha|discriminate].
Qed.

Lemma area_win64 aw fin m p h : calls (win64 aw fin) m p h ->
  exists m' pc, swap_win64 m = Ok (m', pc) /\ tib m' = tib m /\
    forall a, ~ (p <= a < p + 256) -> a <> tib m + 8 -> a <> tib m + 16 -> mem m' a = mem m a.
Proof.
  intros HC. destruct (only_area _ _ _ _ _ (eq_refl : 0 < a_area (win64 aw fin)) (win64_switch aw fin) HC)
    as (m' & pc & E & T & F).
  exists m', pc. split; [exact E|]. split; [exact T|]. intros a Ha A1 A2. apply F; [exact Ha|auto].
Qed.

Lemma area_aarch64 fn m p h : calls (aarch64 fn) m p h ->
  exists m' pc, swap_a64 false m = Ok (m', pc) /\
    forall a, ~ (p <= a < p + 176) -> mem m' a = mem m a.
Proof.
  intros HC. destruct (only_area _ _ _ _ _ (eq_refl : 0 < a_area (aarch64 fn)) (aarch64_switch fn) HC)
    as (m' & pc & E & _ & F).
  exists m', pc. split; [exact E|]. intros a Ha. apply F; [exact Ha|discriminate].
Qed.

(* The field magic_number (at 184) of every task that switches away is lost
   unless the limit of the current stack happens to be that number. *)
Lemma winarm_magic fn m p h : calls (aarch64_win fn) m p h ->
  mem m (p + 184) = 0x7E3CB1A9 -> mem m (tib m + 16) <> 0x7E3CB1A9 ->
  exists m' pc, swap_a64 true m = Ok (m', pc) /\ mem m' (p + 184) <> 0x7E3CB1A9.
Proof.
  intros HC _ Hn. destruct (winarm_fields fn m p h HC) as (m' & pc & E & _ & F & _).
  exists m', pc. split; [exact E|]. rewrite F. exact Hn.
Qed.

(* ---- a history, to see that the conditions can be met ---- *)

Definition ex_m0 : mach := mkM (fun _ => 0) (fun _ => (0, 0)) (fun _ => 0) 0.
Definition ex_m1 : mach :=
  with_mem (with_mem (with_mem ex_m0 69592 22) 69584 11) 65536 69584.
(* about to call the switch, with values of its own in the registers *)
Definition ex_m2 : mach :=
  mkM (fun r => if Nat.eqb r 7 then 65536 else if Nat.eqb r 6 then 4096
                else if Nat.eqb r 4 then 131072 else Z.of_nat r + 1000) (fp ex_m1)
      (mset (mem ex_m1) 131072 77) 0.

Lemma ex_legal : starts (sysv 11 22) 4096 ex_m0 /\
  legal (sysv 11 22) (fun _ => None) 4096 ex_m0 [New 65536 4096; Work ex_m2; Switch 65536].
Proof.
  assert (Hsp : space 8 = 18446744073709551616) by reflexivity.
  split; [split; [lia|split; [reflexivity|split; [simpl; lia|discriminate]]]|].
  cbn [legal]. split.
  - assert (HL : forall k, live (fun _ => None) 4096 k -> k = 4096) by (intros k [->|C]; congruence).
    split; [lia|]. split; [reflexivity|]. split; [simpl; lia|]. split; [simpl; lia|].
    split; [intros k Hk; rewrite (HL k Hk); simpl; lia|]. split; [discriminate|discriminate].
  - intros m' vals Hd.
    assert (Hm : m' = ex_m1).
    { assert (E : a_derive (sysv 11 22) ex_m0 65536 4096 = Ok ex_m1) by reflexivity. congruence. }
    subst m'. set (c := mkC _ _ vals).
    assert (Hc : c_sp c - 8 = 69584) by reflexivity.
    assert (HL : forall k, live (gset (fun _ => None) 65536 (Some c)) 4096 k -> k = 65536 \/ k = 4096).
    { intros k Hk. apply live_new in Hk as [->|[->|C]]; auto; congruence. }
    split.
    + split; [reflexivity|]. intros k d a Hk Hg. unfold gset in Hk.
      destruct (Z.eqb_spec k 65536); [|discriminate]. injection Hk as <-. subst k.
      unfold ex_m2. cbn [mem]. apply mset_other.
      unfold guard in Hg. cbn [a_area a_w sysv] in Hg. rewrite Hc in Hg. lia.
    + split; [|intros; exact I].
      split; [discriminate|]. split; [reflexivity|]. split; [reflexivity|]. split; [exact I|].
      intros _. change (reg ex_m2 (a_sp (sysv 11 22))) with 131072. cbv zeta. simpl a_w. rewrite Hsp.
      split; [lia|]. split; [lia|]. split; [reflexivity|]. split; [|discriminate].
      intros k Hk. destruct (HL k Hk) as [->| ->]; simpl; lia.
Qed.

(* ---- the same, taken apart ---- *)

Lemma begin_sysv aw fin m m1 m2 h n p : into_new (sysv aw fin) m m1 m2 h n p ->
  exists m', swap_sysv m2 = Ok (m', aw) /\
    (reg m' 4 + 8) mod 16 = 0 /\ mem m' (reg m' 4) = fin /\
    h + n - 56 < reg m' 4 /\ reg m' 4 + 8 <= h + n - 32.
Proof. intros H. destruct (start_sysv _ _ _ _ _ _ _ _ H) as (m' & H'). exists m'. tauto. Qed.

Lemma begin_i386 aw fin m m1 m2 h n p : into_new (i386 aw fin) m m1 m2 h n p ->
  exists m', swap_i386 m2 = Ok (m', aw) /\
    (reg m' 4 + 4) mod 16 = 0 /\ mem m' (reg m' 4) = fin /\
    h + n - 56 < reg m' 4 /\ reg m' 4 + 4 <= h + n - 32.
Proof. intros H. destruct (start_i386 _ _ _ _ _ _ _ _ H) as (m' & H'). exists m'. tauto. Qed.

Lemma begin_win64 aw fin m m1 m2 h n p : into_new (win64 aw fin) m m1 m2 h n p ->
  exists m', swap_win64 m2 = Ok (m', aw) /\
    (reg m' 4 + 8) mod 16 = 0 /\ mem m' (reg m' 4) = fin /\
    h + n - 56 < reg m' 4 /\ reg m' 4 + 8 + 32 <= h + n /\
    mem m' (tib m' + 8) = mem m2 (h + 240) /\ mem m' (tib m' + 16) = mem m2 (h + 248) /\
    mem m1 (h + 240) = h + n /\ mem m1 (h + 248) = h.
Proof. intros H. destruct (start_win64 _ _ _ _ _ _ _ _ H) as (m' & H'). exists m'. tauto. Qed.

Lemma end_x86 aw fin m m1 m2 h n p :
  (into_new (sysv aw fin) m m1 m2 h n p ->
   exists m', swap_sysv m2 = Ok (m', aw) /\ mem m' (reg m' 4) = fin /\ (reg m' 4 + 8 + 8) mod 16 <> 0) /\
  (into_new (i386 aw fin) m m1 m2 h n p ->
   exists m', swap_i386 m2 = Ok (m', aw) /\ mem m' (reg m' 4) = fin /\ (reg m' 4 + 4 + 4) mod 16 <> 0) /\
  (into_new (win64 aw fin) m m1 m2 h n p ->
   exists m', swap_win64 m2 = Ok (m', aw) /\ mem m' (reg m' 4) = fin /\ (reg m' 4 + 8 + 8) mod 16 <> 0 /\
     (n mod 16 = 0 -> (reg m' 4 + 8) + 8 + 32 = h + n + 8)).
Proof.
  split; [|split]; intros H.
  - destruct (start_sysv _ _ _ _ _ _ _ _ H) as (m' & H'). exists m'. tauto.
  - destruct (start_i386 _ _ _ _ _ _ _ _ H) as (m' & H'). exists m'. tauto.
  - destruct (start_win64 _ _ _ _ _ _ _ _ H) as (m' & H'). exists m'. tauto.
Qed.
