(* Specification and proofs for SkModel. *)
From Coq Require Import ZArith List Bool Lia.
From Verif Require Import Base SkModel.
Import ListNotations.
Open Scope Z_scope.

(* ---- specification ---- *)

(* Sizes that make sense: a descriptor of at least a word, size_t of 4 or 8 bytes. *)
Definition sane (p : plat) : Prop :=
  (p_max p = 2 ^ 32 \/ p_max p = 2 ^ 64) /\ 8 <= p_descr p <= 2 ^ 20 /\ 0 <= p_res p <= 2 ^ 20 /\
  match p_minsig p with Some k => 0 <= k <= 2 ^ 20 | None => True end.

(* The stack a task is promised for a request of s bytes. *)
Definition promised (s : Z) : Z := Z.max 8192 s.

(* The requests whose sizes can be computed without overflow. *)
Definition fits (p : plat) (s : Z) (main : bool) : Prop :=
  0 <= s /\ (if main then 6 else 1) * s + 2 ^ 26 <= p_max p.

(* Bytes between the end of the descriptor and the end of the stack. *)
Definition room (p : plat) (y : way) (b : Z) : Z := snd (stack_of p y b) - p_descr p.

(* The stack stays between [base] and [top]. *)
Fixpoint stays (base top sp : Z) (l : list act) : Prop :=
  match l with
  | [] => True
  | Push bs :: r => base <= sp - Z.of_nat (length bs) /\ stays base top (sp - Z.of_nat (length bs)) r
  | Pop n :: r => 0 <= n /\ sp + n <= top /\ stays base top (sp + n) r
  | Check _ :: r => stays base top sp r
  end.

(* The stack pointer after some actions. *)
Fixpoint sp_after (sp : Z) (l : list act) : Z :=
  match l with
  | [] => sp
  | Push bs :: r => sp_after (sp - Z.of_nat (length bs)) r
  | Pop n :: r => sp_after (sp + n) r
  | Check _ :: r => sp_after sp r
  end.

(* ---- sizes ---- *)

Lemma up16_spec : forall p x, sane p -> 0 <= x -> x + 15 < p_max p ->
  x <= up16 p x < x + 16 /\ up16 p x mod 16 = 0.
Proof.
  intros p x Hs Hx Hm. unfold up16, wrap. rewrite (Z.mod_small (x + 15)) by lia.
  clear Hs Hm. cbv zeta.
  pose proof (Z.div_mod (x + 15) 16 ltac:(lia)) as HD.
  pose proof (Z.mod_pos_bound (x + 15) 16 ltac:(lia)) as HB.
  split; [lia|].
  replace (x + 15 - (x + 15) mod 16) with ((x + 15) / 16 * 16) by lia. apply Z.mod_mul. lia.
Qed.

Lemma pow_bounds : 2 ^ 32 = 4294967296 /\ 2 ^ 64 = 18446744073709551616 /\ 2 ^ 20 = 1048576 /\ 2 ^ 26 = 67108864.
Proof. repeat split; reflexivity. Qed.

(* The bytes of the stack part before rounding. *)
Definition plain (p : plat) (s : Z) (main thread : bool) : Z :=
  let h0 := promised s in
  let h1 := match p_minsig p with Some k => if h0 <=? k then k + h0 else h0 | None => h0 end in
  let h2 := if main then 6 * h1 else h1 in
  if p_more p && thread && (h2 <=? 18432) then 18432 + h2 else h2.

Lemma block_plain : forall p s main thread, sane p -> fits p s main ->
  block_bytes p s main thread = up16 p (plain p s main thread + p_descr p + p_res p) /\
  0 <= plain p s main thread /\ plain p s main thread + p_descr p + p_res p + 15 < p_max p /\
  promised s <= plain p s main thread /\
  (main = true -> 6 * promised s <= plain p s main thread) /\
  (p_more p = true -> thread = true -> 18432 < plain p s main thread) /\
  plain p s main thread <= (if main then 6 else 1) * (promised s + match p_minsig p with Some k => k | None => 0 end)
    + (if p_more p && thread then 18432 else 0).
Proof.
  intros p s main thread (HM & HT & HR & HK) (Hs & Hf).
  destruct pow_bounds as (E32 & E64 & E20 & E26). rewrite E32, E64, E20, E26 in *.
  unfold block_bytes, plain.
  replace (if (negb (s =? 0) && (s <? 8192)) || (s =? 0) then 8192 else s) with (promised s).
  2:{ unfold promised. destruct (Z.eqb_spec s 0), (Z.ltb_spec s 8192); cbn; lia. }
  assert (HP : 8192 <= promised s <= Z.max 8192 s) by (unfold promised; lia).
  assert (HPs : promised s <= s + 8192) by (unfold promised; lia).
  set (P := promised s) in *. clearbody P.
  cbv zeta.
  assert (Hh1 : exists h1, match p_minsig p with Some k => if P <=? k then wrap p (k + P) else P | None => P end = h1 /\
     match p_minsig p with Some k => if P <=? k then k + P else P | None => P end = h1 /\
     P <= h1 <= P + match p_minsig p with Some k => k | None => 0 end /\
     match p_minsig p with Some k => k | None => 0 end <= 1048576).
  { destruct (p_minsig p) as [k|].
    - destruct (P <=? k) eqn:E.
      + apply Z.leb_le in E. exists (k + P). unfold wrap. rewrite Z.mod_small by (destruct HM as [-> | ->]; lia). repeat split; lia.
      + apply Z.leb_gt in E. exists P. repeat split; lia.
    - exists P. repeat split; lia. }
  destruct Hh1 as (h1 & -> & -> & B1 & BK).
  set (K := match p_minsig p with Some k => k | None => 0 end) in *. clearbody K.
  assert (Hh2 : (if main then wrap p (h1 * 6) else h1) = (if main then 6 * h1 else h1)).
  { destruct main; [|reflexivity]. unfold wrap. rewrite Z.mod_small by (destruct HM as [HM|HM]; rewrite HM in *; lia). lia. }
  rewrite Hh2. set (h2 := if main then 6 * h1 else h1) in *.
  assert (B2 : P <= h2 /\ (main = true -> 6 * P <= h2) /\ h2 <= (if main then 6 else 1) * (P + K)).
  { unfold h2. destruct main; repeat split; try discriminate; intros; lia. }
  assert (Hh2' : h2 + 18432 + p_descr p + p_res p + 15 < p_max p).
  { destruct B2 as (_ & _ & B2). destruct main; destruct HM as [HM|HM]; rewrite HM in *; lia. }
  clear Hh2. clearbody h2.
  set (h3 := if p_more p && thread && (h2 <=? 18432) then 18432 + h2 else h2).
  assert (E3 : (if p_more p && thread && (h2 <=? 18 * 1024) then wrap p (18 * 1024 + h2) else h2) = h3).
  { unfold h3. change (18 * 1024) with 18432. destruct (p_more p && thread && (h2 <=? 18432)); [|reflexivity].
    unfold wrap. apply Z.mod_small. lia. }
  rewrite E3.
  assert (B3 : h2 <= h3 <= h2 + (if p_more p && thread then 18432 else 0)).
  { unfold h3. destruct (p_more p && thread); cbn [andb]; [destruct (h2 <=? 18432)|]; lia. }
  assert (B3' : h3 <= h2 + 18432) by (destruct (p_more p && thread); lia).
  assert (W : wrap p (wrap p (h3 + p_descr p) + p_res p) = h3 + p_descr p + p_res p).
  { unfold wrap. rewrite (Z.mod_small (h3 + p_descr p)) by lia. apply Z.mod_small. lia. }
  rewrite W. destruct B2 as (B2a & B2b & B2c).
  split; [reflexivity|]. split; [lia|]. split; [lia|]. split; [lia|].
  split; [intros Hm; specialize (B2b Hm); lia|].
  split; [|destruct (p_more p && thread); lia].
  intros Hm Ht. unfold h3. rewrite Hm, Ht. cbn [andb]. destruct (Z.leb_spec h2 18432); lia.
Qed.

Lemma c150_room : forall p s main thread, sane p -> fits p s main ->
  let b := block_bytes p s main thread in
  b mod 16 = 0 /\
  p_descr p + promised s <= b /\
  promised s <= room p Asm b /\
  (main = true -> 6 * promised s <= room p Asm b) /\
  (p_more p = true -> thread = true -> 18432 < room p Asm b) /\
  b < p_descr p + p_res p + 16 + (if main then 6 else 1) * (promised s + match p_minsig p with Some k => k | None => 0 end)
      + (if p_more p && thread then 18432 else 0).
Proof.
  intros p s main thread Hp Hf b.
  destruct (block_plain p s main thread Hp Hf) as (E & Hp0 & Hlt & H1 & H2 & H3 & H4).
  destruct Hp as (HM & HT & HR & HK). destruct pow_bounds as (E32 & E64 & E20 & E26).
  destruct (up16_spec p (plain p s main thread + p_descr p + p_res p)) as (U & U16);
    [repeat split; auto; tauto | lia | lia |].
  unfold b, room, stack_of, snd. rewrite E. clear HM HK E32 E64 E20 E26.
  set (B := up16 p _) in *. clearbody B.
  split; [exact U16|]. clear U16. split; [lia|]. split; [lia|].
  split; [intros Hm; specialize (H2 Hm); lia|]. split; [intros Hm Ht; specialize (H3 Hm Ht); lia|]. lia.
Qed.

(* What the other two ways leave. *)
Lemma c150_others : forall p s main thread u, sane p -> fits p s main -> 0 <= u <= 2 ^ 13 ->
  let b := block_bytes p s main thread in
  promised s - p_descr p <= room p Sjlj b /\
  promised s - u - 56 <= room p (Uctx u) b /\
  snd (stack_of p Sjlj b) <= b /\
  snd (stack_of p (Uctx u) b) <= b.
Proof.
  intros p s main thread u Hp Hf Hu b.
  destruct (c150_room p s main thread Hp Hf) as (_ & _ & H & _). fold b in H.
  assert (HB : p_descr p + p_res p + promised s <= b).
  { destruct (block_plain p s main thread Hp Hf) as (E & Hp0 & Hlt & H1 & _).
    destruct (up16_spec p (plain p s main thread + p_descr p + p_res p) Hp) as (U & _).
    - destruct Hp as (_ & HT & HR & _). destruct pow_bounds as (_ & _ & E20 & _). lia.
    - lia.
    - unfold b. rewrite E. lia. }
  destruct Hp as (_ & HT & HR & _). destruct pow_bounds as (_ & _ & E20 & _). rewrite E20 in *.
  unfold room, stack_of, snd in *. repeat split; lia.
Qed.

(* where the stacks lie *)
Lemma c150_within : forall p y b, 0 <= p_descr p -> match y with Uctx u => 0 <= u | _ => True end ->
  0 <= fst (stack_of p y b) /\ snd (stack_of p y b) <= b /\
  snd (stack_of p y b) - fst (stack_of p y b) = b - match y with Asm => 0 | Sjlj => p_descr p | Uctx u => u + 64 end /\
  (y = Asm -> snd (stack_of p y b) = b) /\ (forall u, y = Uctx u -> 8 <= fst (stack_of p y b)).
Proof. intros p [| |u] b Hd Hu; unfold stack_of, fst, snd; repeat split; intros; try discriminate; try lia. Qed.

Lemma c150_sjlj_short : forall p s u, sane p -> p_minsig p = None -> fits p s false ->
  let b := block_bytes p s false false in
  (p_res p + 16 <= p_descr p -> room p Sjlj b < promised s) /\
  (p_res p + 16 <= u -> room p (Uctx u) b < promised s) /\
  fst (stack_of p Sjlj b) < p_descr p /\
  (8 < p_descr p -> fst (stack_of p (Uctx u) b) < p_descr p).
Proof.
  intros p s u Hp HK Hf b.
  destruct (c150_room p s false false Hp Hf) as (_ & _ & _ & _ & _ & H). fold b in H.
  rewrite HK, andb_false_r in H.
  destruct Hp as (_ & HT & HR & _). destruct pow_bounds as (_ & _ & E20 & _). rewrite E20 in *.
  unfold room, stack_of, snd, fst. repeat split; intros; lia.
Qed.

Lemma c150_overflow : forall p, sane p -> p_minsig p = None ->
  exists s, 0 <= s < p_max p /\ block_bytes p s false false < p_descr p.
Proof.
  intros p (HM & HT & HR & _) HK. exists (p_max p - p_descr p - p_res p).
  destruct pow_bounds as (E32 & E64 & E20 & E26). rewrite E32, E64, E20 in *.
  assert (HM' : 4294967296 <= p_max p) by lia.
  split; [lia|].
  unfold block_bytes. rewrite HK. rewrite andb_false_r. cbn [andb].
  set (s := p_max p - p_descr p - p_res p).
  replace ((negb (s =? 0) && (s <? 8192)) || (s =? 0)) with false.
  2:{ destruct (Z.eqb_spec s 0), (Z.ltb_spec s 8192); unfold s in *; try lia; reflexivity. }
  cbv zeta.
  replace (wrap p (s + p_descr p)) with (wrap p (p_max p - p_res p)) by (f_equal; unfold s; lia).
  replace (wrap p (wrap p (p_max p - p_res p) + p_res p)) with 0.
  2:{ unfold wrap. rewrite Zplus_mod_idemp_l. replace (p_max p - p_res p + p_res p) with (p_max p) by lia.
      symmetry. apply Z.mod_same. lia. }
  unfold up16, wrap. rewrite (Z.mod_small (0 + 15)) by lia. cbn. lia.
Qed.

Lemma c150_not_monotone : exists p s1 s2, sane p /\ 0 <= s1 < s2 /\
  block_bytes p s2 false true < block_bytes p s1 false true.
Proof.
  exists (mkP (2 ^ 64) 656 40 None true), 18432, 18433.
  split; [repeat split; cbn; auto; lia|]. split; [lia|]. vm_compute. reflexivity.
Qed.

(* ---- the check ---- *)

Lemma put_length : forall l o bs, (o + length bs <= length l)%nat -> length (put l o bs) = length l.
Proof. intros. unfold put. rewrite !app_length, firstn_length, skipn_length. lia. Qed.

Lemma put_below : forall l o bs b, (b <= o)%nat -> (o + length bs <= length l)%nat ->
  firstn b (put l o bs) = firstn b l.
Proof.
  intros. unfold put. rewrite firstn_app, firstn_firstn, firstn_length.
  replace (Nat.min b o) with b by lia. replace (b - Nat.min o (length l))%nat with 0%nat by lia.
  rewrite firstn_O, app_nil_r. reflexivity.
Qed.

Lemma magic_of_firstn : forall (l l' : list Z) b mo n, (mo + n <= b)%nat -> firstn b l = firstn b l' ->
  firstn n (skipn mo l) = firstn n (skipn mo l').
Proof.
  intros l l' b mo n H E.
  assert (G : forall x : list Z, firstn n (skipn mo x) = firstn n (skipn mo (firstn b x))).
  { intros x. rewrite skipn_firstn_comm, firstn_firstn. f_equal. lia. }
  rewrite (G l), (G l'), E. reflexivity.
Qed.

Lemma bytes_eqb_spec : forall a b, bytes_eqb a b = true <-> a = b.
Proof. intros. unfold bytes_eqb. destruct (list_eq_dec Z.eq_dec a b); split; intros; congruence. Qed.

Definition magic_at (mo : nat) (magic mem : list Z) : Prop := firstn (length magic) (skipn mo mem) = magic.

(* A stop on the way: a check with too little left. *)
Definition too_deep (base sp : Z) (l : list act) : Prop :=
  exists l1 n l2, l = l1 ++ Check n :: l2 /\
    (sp_after sp l1 <= base \/ sp_after sp l1 - base < 256 + n).

Lemma too_deep_cons : forall base sp a r, too_deep base sp (a :: r) <->
  (match a with Check n => sp <= base \/ sp - base < 256 + n | _ => False end) \/ too_deep base (sp_after sp [a]) r.
Proof.
  intros base sp a r. split.
  - intros (l1 & n & l2 & E & H). destruct l1 as [|b l1]; cbn [app] in E.
    + inversion E; subst. left. exact H.
    + inversion E; subst. right. exists l1, n, l2. split; [reflexivity|]. destruct b; exact H.
  - intros [H|(l1 & n & l2 & E & H)].
    + destruct a as [bs|k|n]; try contradiction. exists [], n, r. split; [reflexivity|]. exact H.
    + exists (a :: l1), n, l2. split; [cbn; congruence|]. destruct a; exact H.
Qed.

Lemma c151_within : forall l base mo magic s,
  0 <= base -> (mo + length magic <= Z.to_nat base)%nat ->
  magic_at mo magic (s_mem s) ->
  base <= s_sp s <= Z.of_nat (length (s_mem s)) ->
  stays base (Z.of_nat (length (s_mem s))) (s_sp s) l ->
  (too_deep base (s_sp s) l /\ run base mo magic s l = Ok Stopped) \/
  (~ too_deep base (s_sp s) l /\ exists s', run base mo magic s l = Ok (Goes s') /\
     s_sp s' = sp_after (s_sp s) l /\ length (s_mem s') = length (s_mem s) /\
     firstn (Z.to_nat base) (s_mem s') = firstn (Z.to_nat base) (s_mem s)).
Proof.
  induction l as [|a r IH]; intros base mo magic s Hb Hmo Hmag Hsp Hst.
  - right. split.
    + intros (l1 & n & l2 & E & _). destruct l1; discriminate.
    + exists s. repeat split; reflexivity.
  - destruct a as [bs|n|n]; cbn [stays] in Hst; cbn [run do_act]; cbv zeta.
    + destruct Hst as (H1 & Hst).
      replace (s_sp s - Z.of_nat (length bs) <? 0) with false by (symmetry; apply Z.ltb_ge; lia).
      cbn [bind].
      set (s1 := mkS (put (s_mem s) (Z.to_nat (s_sp s - Z.of_nat (length bs))) bs) (s_sp s - Z.of_nat (length bs))).
      assert (Hfit : (Z.to_nat (s_sp s - Z.of_nat (length bs)) + length bs <= length (s_mem s))%nat) by lia.
      assert (HL : length (s_mem s1) = length (s_mem s)) by (apply put_length; exact Hfit).
      assert (HF : firstn (Z.to_nat base) (s_mem s1) = firstn (Z.to_nat base) (s_mem s))
        by (apply put_below; [lia|exact Hfit]).
      destruct (IH base mo magic s1 Hb Hmo) as [(D & R)|(D & s' & R & A1 & A2 & A3)].
      * unfold magic_at in *. rewrite (magic_of_firstn _ (s_mem s) (Z.to_nat base)); auto.
      * rewrite HL. cbn [s1 s_sp]. lia.
      * rewrite HL. exact Hst.
      * left. split; [apply too_deep_cons; right; exact D|exact R].
      * right. split; [intros H; apply too_deep_cons in H; destruct H as [[]|H]; exact (D H)|].
        exists s'. split; [exact R|]. split; [exact A1|]. split; congruence.
    + destruct Hst as (H0 & H1 & Hst). cbn [bind].
      set (s1 := mkS (s_mem s) (s_sp s + n)).
      destruct (IH base mo magic s1 Hb Hmo) as [(D & R)|(D & s' & R & A1 & A2 & A3)].
      * exact Hmag.
      * cbn [s1 s_sp s_mem]. lia.
      * exact Hst.
      * left. split; [apply too_deep_cons; right; exact D|exact R].
      * right. split; [intros H; apply too_deep_cons in H; destruct H as [[]|H]; exact (D H)|].
        exists s'. split; [exact R|]. split; [exact A1|]. split; assumption.
    + replace (bytes_eqb (firstn (length magic) (skipn mo (s_mem s))) magic) with true
        by (symmetry; apply bytes_eqb_spec; exact Hmag).
      cbn [negb]. rewrite orb_false_r.
      destruct ((s_sp s <=? base) || (s_sp s - base <? 256 + n)) eqn:E; cbn [bind].
      * left. split; [|reflexivity]. apply too_deep_cons. left.
        apply orb_true_iff in E. destruct E as [E|E]; [apply Z.leb_le in E|apply Z.ltb_lt in E]; lia.
      * apply orb_false_iff in E. destruct E as (E1 & E2). apply Z.leb_gt in E1. apply Z.ltb_ge in E2.
        destruct (IH base mo magic s Hb Hmo Hmag Hsp Hst) as [(D & R)|(D & s' & R & A1 & A2 & A3)].
        -- left. split; [apply too_deep_cons; right; exact D|exact R].
        -- right. split; [intros H; apply too_deep_cons in H; destruct H as [H|H]; [lia|exact (D H)]|].
           exists s'. split; [exact R|]. split; [exact A1|]. split; assumption.
Qed.

Lemma run_app : forall l1 l2 base mo magic s,
  run base mo magic s (l1 ++ l2) =
  do x <- run base mo magic s l1; match x with Goes s' => run base mo magic s' l2 | Stopped => Ok Stopped end.
Proof.
  induction l1 as [|a r IH]; intros; cbn [app run bind]; [reflexivity|].
  destruct (do_act base mo magic s a) as [[s'|]| | |]; cbn [bind]; auto.
Qed.

Lemma run_sp : forall l base mo magic s s', run base mo magic s l = Ok (Goes s') -> s_sp s' = sp_after (s_sp s) l.
Proof.
  induction l as [|a r IH]; intros base mo magic s s' H; cbn [run] in H.
  - inversion H. reflexivity.
  - destruct (do_act base mo magic s a) as [[s1|]| | |] eqn:E; cbn [bind] in H; try discriminate.
    rewrite (IH _ _ _ _ _ H). clear H IH.
    destruct a as [bs|n|n]; cbn [do_act] in E; cbv zeta in E; cbn [sp_after].
    + destruct (_ <? 0) in E; inversion E. reflexivity.
    + inversion E. reflexivity.
    + destruct (_ || _) in E; inversion E. reflexivity.
Qed.

Lemma c151_passed : forall base mo magic s l1 n l2 s',
  run base mo magic s (l1 ++ Check n :: l2) = Ok (Goes s') ->
  exists s1, run base mo magic s l1 = Ok (Goes s1) /\ base < s_sp s1 /\ base + 256 + n <= s_sp s1 /\
    magic_at mo magic (s_mem s1).
Proof.
  intros base mo magic s l1 n l2 s' H. rewrite run_app in H.
  destruct (run base mo magic s l1) as [[s1|]| | |]; cbn [bind] in H; try discriminate.
  exists s1. split; [reflexivity|]. cbn [run do_act] in H.
  destruct ((s_sp s1 <=? base) || (s_sp s1 - base <? 256 + n)
     || negb (bytes_eqb (firstn (length magic) (skipn mo (s_mem s1))) magic)) eqn:E; cbn [bind] in H; [discriminate|].
  apply orb_false_iff in E. destruct E as (E & E3). apply orb_false_iff in E. destruct E as (E1 & E2).
  apply Z.leb_gt in E1. apply Z.ltb_ge in E2. apply negb_false_iff, bytes_eqb_spec in E3.
  split; [lia|]. split; [lia|]. exact E3.
Qed.

Lemma c151_stopped : forall base mo magic s l1 n l2 s1,
  run base mo magic s l1 = Ok (Goes s1) ->
  s_sp s1 < base + 256 + n \/ ~ magic_at mo magic (s_mem s1) ->
  run base mo magic s (l1 ++ Check n :: l2) = Ok Stopped.
Proof.
  intros base mo magic s l1 n l2 s1 H HB. rewrite run_app, H. cbn [bind run do_act].
  destruct ((s_sp s1 <=? base) || (s_sp s1 - base <? 256 + n)
     || negb (bytes_eqb (firstn (length magic) (skipn mo (s_mem s1))) magic)) eqn:E; [reflexivity|].
  exfalso. apply orb_false_iff in E. destruct E as (E & E3). apply orb_false_iff in E. destruct E as (E1 & E2).
  apply Z.ltb_ge in E2. apply negb_false_iff, bytes_eqb_spec in E3. destruct HB as [HB|HB]; [lia|exact (HB E3)].
Qed.

(* An overrun that is gone again at the check. *)
Lemma c151_unseen : forall base mo magic mem,
  (mo + length magic < Z.to_nat base)%nat -> magic_at mo magic mem ->
  base + 256 <= Z.of_nat (length mem) ->
  exists l s', run base mo magic (mkS mem (Z.of_nat (length mem))) l = Ok (Goes s') /\
    (exists l1 l2, l = l1 ++ l2 /\ sp_after (Z.of_nat (length mem)) l1 < base) /\
    (exists l0, l = l0 ++ [Check 0]) /\
    nth (Z.to_nat base - 1) (s_mem s') 0 <> nth (Z.to_nat base - 1) mem 0.
Proof.
  intros base mo magic mem Hmo Hmag Hb.
  set (v := nth (Z.to_nat base - 1) mem 0 + 1).
  set (top := length mem) in *.
  set (bs := repeat v (top - Z.to_nat base + 1)).
  assert (HL : length bs = (top - Z.to_nat base + 1)%nat) by (apply repeat_length).
  assert (Hbase : 0 < base) by lia.
  exists [Push bs; Pop (Z.of_nat (length bs)); Check 0].
  exists (mkS (put mem (Z.to_nat base - 1) bs) (Z.of_nat top)).
  assert (Esp : Z.of_nat top - Z.of_nat (length bs) = base - 1) by (rewrite HL; lia).
  assert (Efit : (Z.to_nat base - 1 + length bs <= length mem)%nat) by (rewrite HL; fold top; lia).
  split.
  - cbn [run do_act s_sp s_mem]. cbv zeta. rewrite Esp.
    replace (base - 1 <? 0) with false by (symmetry; apply Z.ltb_ge; lia). cbn [bind s_sp s_mem].
    replace (Z.to_nat (base - 1)) with (Z.to_nat base - 1)%nat by lia.
    replace (base - 1 + Z.of_nat (length bs)) with (Z.of_nat top) by lia.
    replace (Z.of_nat top <=? base) with false by (symmetry; apply Z.leb_gt; lia).
    replace (Z.of_nat top - base <? 256 + 0) with false by (symmetry; apply Z.ltb_ge; lia).
    replace (bytes_eqb _ _) with true; [reflexivity|]. symmetry. apply bytes_eqb_spec.
    unfold magic_at in Hmag. rewrite <- Hmag at 2.
    apply (magic_of_firstn _ _ (Z.to_nat base - 1)); [lia|]. apply put_below; [lia|exact Efit].
  - split; [|split].
    + exists [Push bs], [Pop (Z.of_nat (length bs)); Check 0]. split; [reflexivity|]. cbn [sp_after]. lia.
    + exists [Push bs; Pop (Z.of_nat (length bs))]. reflexivity.
    + cbn [s_mem]. unfold put. rewrite app_nth2 by (rewrite firstn_length; lia).
      rewrite firstn_length. replace (Z.to_nat base - 1 - Nat.min (Z.to_nat base - 1) (length mem))%nat with 0%nat by lia.
      unfold bs. rewrite Nat.add_1_r. cbn [repeat app nth]. unfold v. lia.
Qed.

(* A task that never gives up control is never checked. *)
Lemma c151_outside : forall base mo magic s, 0 <= s_sp s -> exists l, run base mo magic s l = UB.
Proof.
  intros base mo magic s H. exists [Push (repeat 0 (S (Z.to_nat (s_sp s))))].
  cbn [run do_act]. cbv zeta. rewrite repeat_length.
  replace (s_sp s - Z.of_nat (S (Z.to_nat (s_sp s))) <? 0) with true by (symmetry; apply Z.ltb_lt; lia). reflexivity.
Qed.

(* ---- creation by a signal ---- *)

(* What a thread finds when it makes a task while no other thread does. *)
Definition made (y : sys) (a : alt) (blocked : bool) (t : thr) : Prop :=
  t_ret t = Some (y_alt y && y_act y && y_raise y) /\
  t_user t = [] /\
  (y_alt y && y_act y && y_raise y = true -> t_ctx t = negb blocked /\ t_pending t = blocked) /\
  (y_alt y && negb (y_act y) = false -> t_alt t = a).

Lemma step1 : forall ys r i p ts y t, killed p = false -> nth_error ts i = Some t -> nth_error ys i = Some y ->
  interleave ys (i :: r) p ts =
  interleave ys r (fst (derive_step y p t)) (set_nth i (snd (derive_step y p t)) ts).
Proof. intros ys r i p ts y t Hk Ht Hy. cbn [interleave]. rewrite Hk, Ht, Hy. destruct (derive_step y p t). reflexivity. Qed.

Lemma alone6 : forall ys p ts i y a blocked r, killed p = false ->
  nth_error ys i = Some y -> nth_error ts i = Some (begin a blocked) ->
  exists t, interleave ys (repeat i 6 ++ r) p ts = interleave ys r p (set_nth i t ts) /\ made y a blocked t.
Proof.
  intros ys p ts i y a blocked r Hk Hy Ht.
  assert (Hi : (i < length ts)%nat) by (apply nth_error_Some; congruence).
  assert (S1 : forall (t : thr) l, (i < length l)%nat -> nth_error (set_nth i t l) i = Some t).
  { clear. intros t l. revert i. induction l as [|h l IH]; intros i Hi; [cbn in Hi; lia|].
    destruct i; cbn; [reflexivity|]. apply IH. cbn in Hi. lia. }
  assert (S2 : forall t t' (l : list thr), set_nth i t (set_nth i t' l) = set_nth i t l).
  { clear. intros t t' l. revert i. induction l as [|h l IH]; intros i; destruct i; cbn; auto. f_equal. apply IH. }
  assert (S3 : forall t (l : list thr), length (set_nth i t l) = length l).
  { clear. intros t l. revert i. induction l as [|h l IH]; intros i; destruct i; cbn; auto. }
  destruct p as [d k]. cbn [killed] in Hk. subst k.
  destruct y as [ya yc yr].
  destruct ya, yc, yr, blocked;
  (eexists; split;
   [ change (repeat i 6 ++ r) with (i :: i :: i :: i :: i :: i :: r);
     (erewrite step1; [|reflexivity|exact Ht|exact Hy]);
     do 5 (cbn [derive_step begin set_pc fst snd t_pc t_alt t_oldalt t_olddisp t_ctx t_func t_blocked t_pending t_user t_ret
                  y_alt y_act y_raise negb d_now killed]; rewrite ?S2;
           erewrite step1; [|reflexivity|apply S1; exact Hi|exact Hy]);
     cbn [derive_step begin set_pc fst snd t_pc t_alt t_oldalt t_olddisp t_ctx t_func t_blocked t_pending t_user t_ret
                  y_alt y_act y_raise negb d_now killed]; rewrite ?S2;
     reflexivity
   | unfold made; cbn; repeat split; intros; congruence ]).
Qed.

Lemma set_nth_other : forall {A} (l : list A) i j x, i <> j -> nth_error (set_nth i x l) j = nth_error l j.
Proof.
  intros A. induction l as [|h l IH]; intros i j x H; destruct i, j; cbn; auto; congruence.
Qed.

Lemma set_nth_same : forall {A} (l : list A) i x, (i < length l)%nat -> nth_error (set_nth i x l) i = Some x.
Proof. intros A. induction l as [|h l IH]; intros i x H; cbn in H; [lia|]. destruct i; cbn; auto. apply IH. lia. Qed.

(* Any number of threads, one after the other. *)
Lemma c152_in_turn : forall order ys p ts, killed p = false -> NoDup order ->
  (forall i, In i order -> exists y a b, nth_error ys i = Some y /\ nth_error ts i = Some (begin a b)) ->
  exists ts', interleave ys (flat_map (fun i => repeat i 6) order) p ts = (p, ts') /\
    (forall i y a b, In i order -> nth_error ys i = Some y -> nth_error ts i = Some (begin a b) ->
       exists t, nth_error ts' i = Some t /\ made y a b t) /\
    (forall i, ~ In i order -> nth_error ts' i = nth_error ts i).
Proof.
  induction order as [|i order IH]; intros ys p ts Hk Hnd Hall.
  - exists ts. split; [reflexivity|]. split; [intros i y a b []|reflexivity].
  - inversion Hnd as [|? ? Hni Hnd']; subst.
    destruct (Hall i (or_introl eq_refl)) as (y & a & b & Hy & Ht).
    cbn [flat_map].
    destruct (alone6 ys p ts i y a b (flat_map (fun i => repeat i 6) order) Hk Hy Ht) as (t & E & Hm).
    rewrite E. clear E.
    destruct (IH ys p (set_nth i t ts) Hk Hnd') as (ts' & E & H1 & H2).
    { intros j Hj. destruct (Hall j (or_intror Hj)) as (y' & a' & b' & Hy' & Ht').
      exists y', a', b'. split; [exact Hy'|]. rewrite set_nth_other; [exact Ht'|]. intros ->. exact (Hni Hj). }
    exists ts'. split; [exact E|]. split.
    + intros j y' a' b' [<-|Hj] Hy' Ht'.
      * exists t. split; [rewrite (H2 i Hni); apply set_nth_same; apply nth_error_Some; congruence|].
        rewrite Hy in Hy'. inversion Hy'; subst y'. rewrite Ht in Ht'. inversion Ht'; subst a' b'. exact Hm.
      * apply (H1 j y' a' b' Hj Hy'). rewrite set_nth_other; [exact Ht'|]. intros ->. exact (Hni Hj).
    + intros j Hj. rewrite (H2 j) by (intros H; apply Hj; right; exact H).
      apply set_nth_other. intros ->. apply Hj. left. reflexivity.
Qed.

(* In any order: the signal does what it did or jumps on the springboard, and the process is killed only if the signal
   did that. *)
Lemma c152_any : forall sched ys d0 p ts p' ts',
  (killed p = true -> d0 = DDefault) -> (d_now p = d0 \/ d_now p = DSpring) ->
  Forall (fun t => (t_pc t <= 1)%nat \/ t_olddisp t = d0 \/ t_olddisp t = DSpring \/ t_pc t = 5%nat \/ t_pc t = 6%nat) ts ->
  interleave ys sched p ts = (p', ts') ->
  (killed p' = true -> d0 = DDefault) /\ (d_now p' = d0 \/ d_now p' = DSpring).
Proof.
  induction sched as [|i r IH]; intros ys d0 p ts p' ts' Hk Hd HF H; cbn [interleave] in H.
  - inversion H; subst. auto.
  - destruct (killed p) eqn:Ek; [inversion H; subst; rewrite Ek; auto|].
    destruct (nth_error ts i) as [t|] eqn:Et; [|apply (IH ys d0 p ts p' ts'); auto; rewrite Ek; auto].
    destruct (nth_error ys i) as [y|] eqn:Ey; [|apply (IH ys d0 p ts p' ts'); auto; rewrite Ek; auto].
    destruct (derive_step y p t) as (p1, t1) eqn:Es.
    assert (Ht : (t_pc t <= 1)%nat \/ t_olddisp t = d0 \/ t_olddisp t = DSpring \/ t_pc t = 5%nat \/ t_pc t = 6%nat)
      by (rewrite Forall_forall in HF; apply HF; eapply nth_error_In; exact Et).
    assert (HH : (killed p1 = true -> d0 = DDefault) /\ (d_now p1 = d0 \/ d_now p1 = DSpring) /\
       ((t_pc t1 <= 1)%nat \/ t_olddisp t1 = d0 \/ t_olddisp t1 = DSpring \/ t_pc t1 = 5%nat \/ t_pc t1 = 6%nat)).
    { unfold derive_step in Es.
      destruct (t_pc t) as [|[|[|[|[|[|n]]]]]] eqn:Epc.
      - destruct (y_alt y); inversion Es; subst; cbn; rewrite ?Ek; auto 10.
      - destruct (y_act y); inversion Es; subst; cbn; rewrite ?Ek; auto 10. intuition congruence.
      - destruct (y_raise y); cbn [negb] in Es.
        2:{ inversion Es; subst; cbn. rewrite Ek. destruct Ht as [Ht|[Ht|[Ht|[Ht|Ht]]]]; try discriminate; try lia; auto 10. }
        destruct (t_blocked t).
        { inversion Es; subst; cbn. rewrite Ek. destruct Ht as [Ht|[Ht|[Ht|[Ht|Ht]]]]; try discriminate; try lia; auto 10. }
        destruct (d_now p) eqn:Ed; inversion Es; subst; cbn; rewrite ?Ek, ?Ed;
          destruct Ht as [Ht|[Ht|[Ht|[Ht|Ht]]]]; try discriminate; try lia;
          (split; [intuition congruence|]); (split; [intuition congruence|]); rewrite ?Epc; auto 10.
      - inversion Es; subst; cbn. rewrite Ek. destruct Ht as [Ht|[Ht|[Ht|[Ht|Ht]]]]; try discriminate; try lia; auto 10.
      - inversion Es; subst; cbn. rewrite Ek. destruct Ht as [Ht|[Ht|[Ht|[Ht|Ht]]]]; try discriminate; try lia; auto 10.
      - inversion Es; subst; cbn. rewrite Ek. auto 10.
      - inversion Es; subst; cbn. rewrite Ek, Epc. split; [discriminate|]. split; [auto|].
        destruct Ht as [Ht|[Ht|[Ht|[Ht|Ht]]]]; auto 10. }
    destruct HH as (H1 & H2 & H3).
    apply (IH ys d0 p1 (set_nth i t1 ts) p' ts'); auto.
    clear - HF H3. revert i. induction HF as [|h l Hh HF IH]; intros i; destruct i; cbn; constructor; auto.
Qed.

Lemma c152_any_begin : forall sched ys d ts p' ts',
  Forall (fun t => exists a b, t = begin a b) ts ->
  interleave ys sched (mkProc d false) ts = (p', ts') ->
  (killed p' = true -> d = DDefault) /\ (d_now p' = d \/ d_now p' = DSpring).
Proof.
  intros sched ys d ts p' ts' HF H.
  apply (c152_any sched ys d (mkProc d false) ts p' ts'); cbn; auto; [discriminate|].
  eapply Forall_impl; [|exact HF]. intros t (a & b & ->). cbn. auto.
Qed.

Definition fine : sys := mkY true true true.

Lemma c152_killed : exists sched,
  killed (fst (interleave [fine; fine] sched (mkProc DDefault false) [begin ANone false; begin ANone false])) = true.
Proof. exists [0;0;1;1;0;0;0;1]%nat. vm_compute. reflexivity. Qed.

(* the program's handler runs, and the task is given back without a context *)
Lemma c152_user : forall n, exists sched p' t1 t2,
  interleave [fine; fine] sched (mkProc (DUser n) false) [begin ANone false; begin ANone false] = (p', [t1; t2]) /\
  t_user t2 = [n] /\ t_ret t2 = Some true /\ t_ctx t2 = false.
Proof.
  intros n. exists [0;0;1;1;0;0;0;1;1;1;1]%nat. eexists _, _, _. split; [vm_compute; reflexivity|]. repeat split; reflexivity.
Qed.

Lemma c152_left : forall n, exists sched p' ts',
  interleave [fine; fine] sched (mkProc (DUser n) false) [begin ANone false; begin ANone false] = (p', ts') /\
  Forall (fun t => t_ret t = Some true) ts' /\ d_now p' = DSpring.
Proof.
  intros n. exists [0;0;1;1;0;1;0;0;1;1;0;1]%nat.
  eexists. eexists. split; [cbn; reflexivity|]. split; [|reflexivity].
  repeat constructor.
Qed.

Lemma c152_blocked : forall d, exists t,
  interleave [fine] (repeat 0%nat 6) (mkProc d false) [begin ANone true] = (mkProc d false, [t]) /\
  t_ret t = Some true /\ t_ctx t = false /\ t_pending t = true.
Proof. intros d. eexists. split; [cbn; reflexivity|]. repeat split. Qed.

Lemma c152_altstack : forall d a b, exists t,
  interleave [mkY true false true] (repeat 0%nat 6) (mkProc d false) [begin a b] = (mkProc d false, [t]) /\
  t_ret t = Some false /\ t_alt t = ABlock.
Proof. intros d a b. eexists. split; [cbn; reflexivity|]. repeat split. Qed.
