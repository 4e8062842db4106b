From Verif Require Import Base DllModel DllProofs WheelModel.

(* ================= reference: pending slot numbers ================= *)
(* slots are numbered from 0 without wrapping; slot n covers res seconds and ends at
   stime + (n - slot + 1) * res *)
Record wspec := {
  pend : nat -> option nat;    (* slot in which a descriptor's timeout falls *)
  own : nat -> bool;           (* registered *)
  slot : nat;                  (* first slot not yet expired *)
  stime : Z;                   (* its start *)
  snow : Z;
  slog : list nat }.

Definition with_pend (z : wspec) p := {| pend := p; own := own z; slot := slot z; stime := stime z; snow := snow z; slog := slog z |}.
Definition with_own (z : wspec) o := {| pend := pend z; own := o; slot := slot z; stime := stime z; snow := snow z; slog := slog z |}.

(* a callback for [k] must not touch a descriptor whose timeout is about to be reported in the same
   group of 16 *)
Definition is_slot (z : wspec) (f : nat) : bool := match pend z f with Some n => n =? slot z | None => false end.
Definition forbidden (z : wspec) (cur : option nat) (f : nat) : bool :=
  match cur with
  | None => false
  | Some k => (f / 16 =? k / 16) && (k <? f) && is_slot z f
  end.

Definition spec_set (c : cfg) (z : wspec) (f : nat) (secs : Z) : wspec :=
  if own z f then
    with_pend z (upd (pend z) f (if (secs =? 0)%Z then None else Some (slot z + slot_delta (res c) (snow z) secs (stime z))))
  else z.

Definition spec_act (c : cfg) (cur : option nat) (z : wspec) (a : wact) : option wspec :=
  match a with
  | WSet f secs => if (f <? maxfd c) && (0 <=? secs)%Z && negb (forbidden z cur f) then Some (spec_set c z f secs) else None
  | WAdd f secs => if (f <? maxfd c) && (0 <=? secs)%Z && negb (own z f)
                   then Some (spec_set c (with_own z (upd (own z) f true)) f secs) else None
  | WDel f => if (f <? maxfd c) && negb (forbidden z cur f) then
                if own z f then Some (with_own (with_pend z (upd (pend z) f None)) (upd (own z) f false)) else Some z
              else None
  end.
Fixpoint spec_acts (c : cfg) (cur : option nat) (z : wspec) (l : list wact) : option wspec :=
  match l with [] => Some z | a :: r => match spec_act c cur z a with None => None | Some z1 => spec_acts c cur z1 r end end.

(* descriptors f, f+1, ... (n of them): report those whose timeout is in the current slot *)
Fixpoint spec_fire (n : nat) (c : cfg) (cb : list nat -> nat -> list wact) (f : nat) (z : wspec) : option wspec :=
  match n with
  | O => Some z
  | S n =>
    if is_slot z f then
      match spec_acts c (Some f) {| pend := upd (pend z) f None; own := own z; slot := slot z; stime := stime z;
                                    snow := snow z; slog := slog z ++ [f] |} (cb (slog z) f) with
      | None => None
      | Some z1 => spec_fire n c cb (S f) z1
      end
    else spec_fire n c cb (S f) z
  end.
Definition next_slot (c : cfg) (z : wspec) : wspec :=
  {| pend := pend z; own := own z; slot := S (slot z); stime := (stime z + res c)%Z; snow := snow z; slog := slog z |}.
Fixpoint spec_tick (fuel : nat) (c : cfg) (cb : list nat -> nat -> list wact) (z : wspec) : option wspec :=
  if (stime z + res c <=? snow z)%Z then
    match fuel with
    | O => None
    | S k => match spec_fire (maxfd c) c cb 0 z with None => None | Some z1 => spec_tick k c cb (next_slot c z1) end
    end
  else Some z.
Definition spec_op (fuel : nat) (c : cfg) (z : wspec) (o : wop) : option wspec :=
  match o with
  | WAct a => spec_act c None z a
  | WTick t cb => spec_tick fuel c cb {| pend := pend z; own := own z; slot := slot z; stime := stime z; snow := t; slog := slog z |}
  end.
Fixpoint spec_ops (fuel : nat) (c : cfg) (z : wspec) (l : list wop) : option wspec :=
  match l with [] => Some z | o :: r => match spec_op fuel c z o with None => None | Some z1 => spec_ops fuel c z1 r end end.
Definition wspec0 (t0 n0 : Z) : wspec :=
  {| pend := fun _ => None; own := fun _ => false; slot := 0; stime := t0; snow := n0; slog := [] |}.

(* ================= 16-bit words ================= *)
Definition bounded16 (w : Z) : Prop := (0 <= w)%Z /\ forall i, (16 <= i)%Z -> Z.testbit w i = false.
Definition bit (w : Z) (m : nat) : bool := Z.testbit w (Z.of_nat (15 - m)).

Lemma bounded16_0 : bounded16 0.
Proof. split; [lia|]. intros. apply Z.testbit_0_l. Qed.

Lemma word_zero w : bounded16 w -> (w = 0%Z <-> forall m, m < 16 -> bit w m = false).
Proof.
  intros [H0 H1]. split.
  - intros -> m _. unfold bit. apply Z.testbit_0_l.
  - intros H. apply Z.bits_inj'. intros i Hi. rewrite Z.testbit_0_l.
    destruct (Z.lt_ge_cases i 16) as [L|L]; auto.
    specialize (H (Z.to_nat (15 - i)) ltac:(lia)). unfold bit in H.
    replace (Z.of_nat (15 - Z.to_nat (15 - i))) with i in H by lia. auto.
Qed.
Lemma word_nonzero w : bounded16 w -> w <> 0%Z -> exists m, m < 16 /\ bit w m = true.
Proof.
  intros Hb Hn.
  assert (D : forall n, (exists m, m < n /\ bit w m = true) \/ forall m, m < n -> bit w m = false).
  { induction n as [|n [(m & Hm & E)|H]].
    - right. intros; lia.
    - left. exists m. auto.
    - destruct (bit w n) eqn:E; [left; exists n; auto|]. right. intros m Hm.
      destruct (Nat.eq_dec m n) as [->|]; auto. apply H. lia. }
  destruct (D 16) as [H|H]; auto. exfalso. apply Hn. apply word_zero; auto.
Qed.

Lemma mask_bits k m : m < 16 -> bit (mask k) m = (m =? k mod 16).
Proof.
  intros Hm. unfold bit, mask. rewrite Z.shiftl_1_l.
  assert (k mod 16 < 16) by (apply Nat.mod_upper_bound; lia).
  destruct (Nat.eqb_spec m (k mod 16)) as [->|Ne].
  - apply Z.pow2_bits_true. lia.
  - apply Z.pow2_bits_false. lia.
Qed.
Lemma mask_bounded k : bounded16 (mask k).
Proof.
  assert (k mod 16 < 16) by (apply Nat.mod_upper_bound; lia).
  unfold mask. rewrite Z.shiftl_1_l. split; [apply Z.pow_nonneg; lia|].
  intros i Hi. apply Z.pow2_bits_false. lia.
Qed.
Lemma ldiff_bounded a b : bounded16 a -> bounded16 b -> bounded16 (Z.ldiff a b).
Proof.
  intros [A1 A2] [B1 B2]. split; [apply Z.ldiff_nonneg; auto|].
  intros i Hi. rewrite Z.ldiff_spec, A2; auto.
Qed.
Lemma lor_bounded a b : bounded16 a -> bounded16 b -> bounded16 (Z.lor a b).
Proof.
  intros [A1 A2] [B1 B2]. split; [apply Z.lor_nonneg; auto|].
  intros i Hi. rewrite Z.lor_spec, A2, B2; auto.
Qed.
Lemma ldiff_bit a k m : m < 16 -> bit (Z.ldiff a (mask k)) m = bit a m && negb (m =? k mod 16).
Proof. intros H. rewrite <- mask_bits by auto. unfold bit. apply Z.ldiff_spec. Qed.
Lemma lor_bit a k m : m < 16 -> bit (Z.lor a (mask k)) m = bit a m || (m =? k mod 16).
Proof. intros H. rewrite <- mask_bits by auto. unfold bit. apply Z.lor_spec. Qed.

Lemma shl_bounded v : bounded16 v -> bounded16 (shl v).
Proof.
  intros _. unfold shl. split; [apply Z.mod_pos_bound; lia|].
  intros i Hi. change 65536%Z with (2 ^ 16)%Z. apply Z.mod_pow2_bits_high. lia.
Qed.
Lemma shl_bit v m : m < 16 -> bit (shl v) m = if m =? 15 then false else bit v (S m).
Proof.
  intros H. unfold bit, shl. change 65536%Z with (2 ^ 16)%Z. rewrite Z.mod_pow2_bits_low by lia.
  destruct (Nat.eqb_spec m 15) as [->|Ne].
  - cbn. rewrite Z.mul_comm. destruct v; reflexivity.
  - replace (v * 2)%Z with (2 * v)%Z by lia.
    replace (Z.of_nat (15 - m)) with (Z.succ (Z.of_nat (15 - S m))) by lia.
    rewrite Z.double_bits_succ. reflexivity.
Qed.
Lemma top_bit v : Z.testbit v 15 = bit v 0.
Proof. reflexivity. Qed.

(* ================= bit tables ================= *)
(* bit of item [f] in row [r] *)
Definition get (t : nat -> nat -> Z) (r f : nat) : bool := bit (t r (f / 16)) (f mod 16).
Definition tbounded (t : nat -> nat -> Z) : Prop := forall r j, bounded16 (t r j).

Lemma f_div_mod f : f = f / 16 * 16 + f mod 16 /\ f mod 16 < 16.
Proof. split; [rewrite Nat.mul_comm; apply Nat.div_mod; lia|apply Nat.mod_upper_bound; lia]. Qed.
Lemma div_eq j m : m < 16 -> (j * 16 + m) / 16 = j.
Proof. intros H. rewrite Nat.add_comm, Nat.div_add by lia. rewrite Nat.div_small by lia. lia. Qed.
Lemma mod_eq j m : m < 16 -> (j * 16 + m) mod 16 = m.
Proof. intros H. rewrite Nat.add_comm, Nat.mod_add by lia. now apply Nat.mod_small. Qed.
Lemma get_at t r j m : m < 16 -> get t r (j * 16 + m) = bit (t r j) m.
Proof. intros H. unfold get. now rewrite div_eq, mod_eq. Qed.

Lemma word_zero_get t r j : tbounded t -> (t r j = 0%Z <-> forall f, f / 16 = j -> get t r f = false).
Proof.
  intros Hb. rewrite word_zero by apply Hb. split.
  - intros H f <-. unfold get. apply H. apply f_div_mod.
  - intros H m Hm. rewrite <- get_at by auto. apply H. now apply div_eq.
Qed.
Lemma word_nonzero_get t r j : tbounded t -> (t r j <> 0%Z <-> exists f, f / 16 = j /\ get t r f = true).
Proof.
  intros Hb. split.
  - intros H. destruct (word_nonzero _ (Hb r j) H) as (m & Hm & E). exists (j * 16 + m).
    rewrite div_eq, get_at; auto.
  - intros (f & E & G) Z. rewrite (word_zero_get t r j Hb) in Z. rewrite (Z f E) in G. discriminate.
Qed.

Lemma upd2_same t i j v : upd2 t i j v i j = v.
Proof. unfold upd2. now rewrite !Nat.eqb_refl. Qed.
Lemma upd2_bounded t i j v : tbounded t -> bounded16 v -> tbounded (upd2 t i j v).
Proof. intros H Hv r k. unfold upd2. destruct (_ && _); [exact Hv|apply H]. Qed.
Lemma get_upd2 t i j v r f : get (upd2 t i j v) r f = if (r =? i) && (f / 16 =? j) then bit v (f mod 16) else get t r f.
Proof. unfold get, upd2. destruct (_ && _); auto. Qed.

Lemma same_fd f k : f / 16 = k / 16 -> f mod 16 = k mod 16 -> f = k.
Proof. intros H1 H2. destruct (f_div_mod f), (f_div_mod k). lia. Qed.

Lemma get_clear t i k r f : get (upd2 t i (k / 16) (Z.ldiff (t i (k / 16)) (mask k))) r f
  = get t r f && negb ((r =? i) && (f =? k)).
Proof.
  rewrite get_upd2. destruct (Nat.eqb_spec r i) as [->|Nr]; cbn [andb negb]; [|now rewrite andb_true_r].
  destruct (Nat.eqb_spec (f / 16) (k / 16)) as [E|Ne].
  - rewrite ldiff_bit by apply f_div_mod. unfold get. rewrite E. f_equal. f_equal.
    destruct (Nat.eqb_spec (f mod 16) (k mod 16)) as [E2|N2]; destruct (Nat.eqb_spec f k) as [->|N3]; auto; try congruence.
    exfalso. apply N3. now apply same_fd.
  - destruct (Nat.eqb_spec f k) as [->|]; [congruence|]. now rewrite andb_true_r.
Qed.
Lemma get_set t i k r f : get (upd2 t i (k / 16) (Z.lor (t i (k / 16)) (mask k))) r f
  = get t r f || ((r =? i) && (f =? k)).
Proof.
  rewrite get_upd2. destruct (Nat.eqb_spec r i) as [->|Nr]; cbn [andb negb]; [|now rewrite orb_false_r].
  destruct (Nat.eqb_spec (f / 16) (k / 16)) as [E|Ne].
  - rewrite lor_bit by apply f_div_mod. unfold get. rewrite E. f_equal.
    destruct (Nat.eqb_spec (f mod 16) (k mod 16)) as [E2|N2]; destruct (Nat.eqb_spec f k) as [->|N3]; auto; try congruence.
    exfalso. apply N3. now apply same_fd.
  - destruct (Nat.eqb_spec f k) as [->|]; [congruence|]. now rewrite orb_false_r.
Qed.
Lemma get_zero t i j r f : get (upd2 t i j 0%Z) r f = get t r f && negb ((r =? i) && (f / 16 =? j)).
Proof.
  rewrite get_upd2. destruct (_ && _); cbn [negb]; [|now rewrite andb_true_r].
  rewrite andb_false_r. unfold bit. apply Z.testbit_0_l.
Qed.

Lemma rd2_ok rows cols t i j : i < rows -> j < cols -> rd2 rows cols t i j = Ok (t i j).
Proof. intros H1 H2. unfold rd2. apply Nat.ltb_lt in H1, H2. now rewrite H1, H2. Qed.
Lemma wr2_ok rows cols t i j v : i < rows -> j < cols -> wr2 rows cols t i j v = Ok (upd2 t i j v).
Proof. intros H1 H2. unfold wr2. apply Nat.ltb_lt in H1, H2. now rewrite H1, H2. Qed.

(* ================= table sizes ================= *)
Lemma rnd_up_ge v d : d <> 0 -> v <= rnd_up v d /\ rnd_up v d mod d = 0.
Proof.
  intros H. unfold rnd_up. split; [|now apply Nat.mod_mul].
  pose proof (Nat.div_mod (v + d - 1) d H). pose proof (Nat.mod_upper_bound (v + d - 1) d H). nia.
Qed.
Lemma vec_size_16 n : n <= vec_size n * 16.
Proof.
  unfold vec_size. destruct (rnd_up_ge n 128 ltac:(lia)) as [H1 H2].
  apply Nat.mod_divides in H2; [|lia]. destruct H2 as [q E]. rewrite E in *.
  replace (128 * q) with (8 * q * 16) by lia. rewrite Nat.div_mul by lia. lia.
Qed.
Lemma vov_size_16 n : vec_size n <= vec_of_vec_size n * 16.
Proof.
  unfold vec_of_vec_size. destruct (rnd_up_ge (vec_size n) 128 ltac:(lia)) as [H1 H2].
  apply Nat.mod_divides in H2; [|lia]. destruct H2 as [q E]. rewrite E in *.
  replace (128 * q) with (8 * q * 16) by lia. rewrite Nat.div_mul by lia. lia.
Qed.
Lemma fd_word n f : f < n -> f / 16 < vec_size n.
Proof. intros H. apply Nat.div_lt_upper_bound; [lia|]. pose proof (vec_size_16 n). lia. Qed.
Lemma fd_sum n w : w < vec_size n -> w / 16 < vec_of_vec_size n.
Proof. intros H. apply Nat.div_lt_upper_bound; [lia|]. pose proof (vov_size_16 n). lia. Qed.

Lemma row_fits m a i : a < m -> i < 128 -> i * m + a < m * 128.
Proof. intros H1 H2. assert (i * m <= 127 * m) by (apply Nat.mul_le_mono_r; lia). lia. Qed.
Lemma row_inj m a b i j : a < m -> b < m -> i * m + a = j * m + b -> i = j /\ a = b.
Proof.
  intros Ha Hb E.
  assert (Q : (i * m + a) / m = i) by (rewrite Nat.div_add_l, Nat.div_small by lia; lia).
  assert (R : (j * m + b) / m = j) by (rewrite Nat.div_add_l, Nat.div_small by lia; lia).
  assert (i = j) by congruence. subst. lia.
Qed.
(* every row of both tables lies in the block allocated for them, and rows do not overlap *)
Lemma table_fits n idx fd : fd < n -> idx < 128 ->
  let vs := vec_size n in let vvs := vec_of_vec_size n in
  idx * vvs + fd / 16 / 16 < vvs * 128 /\
  vvs * 128 + idx * vs + fd / 16 < (vvs + vs) * 128 /\
  (forall idx' fd', fd' < n -> idx' < 128 -> idx * vs + fd / 16 = idx' * vs + fd' / 16 -> idx = idx' /\ fd / 16 = fd' / 16) /\
  (forall idx' fd', fd' < n -> idx' < 128 -> idx * vvs + fd / 16 / 16 = idx' * vvs + fd' / 16 / 16 -> idx = idx' /\ fd / 16 / 16 = fd' / 16 / 16).
Proof.
  intros Hf Hi vs vvs. pose proof (fd_word n fd Hf) as H1. pose proof (fd_sum n _ H1) as H2. fold vs in H1. fold vvs in H2.
  split; [now apply row_fits|]. split; [pose proof (row_fits vs (fd / 16) idx H1 Hi); lia|]. split.
  - intros i f F I E. apply (row_inj vs); auto. apply fd_word, F.
  - intros i f F I E. apply (row_inj vvs); auto. apply fd_sum, fd_word, F.
Qed.

(* ================= the invariant ================= *)
(* D: descriptors reported in the word being processed, whose bit is still set;
   S: words already processed whose summary bit is still set *)
Record WI (c : cfg) (D S : nat -> Prop) (s : wheel) (z : wspec) : Prop := {
  wi_vb : tbounded (vec s);
  wi_sb : tbounded (vov s);
  wi_bits : forall r f, r < 128 -> f / 16 < vec_size (maxfd c) ->
    (get (vec s) r f = true <-> ((exists n, pend z f = Some n /\ n mod 128 = r) \/ (r = base_idx s /\ D f)));
  wi_sum1 : forall r w, r < 128 -> w / 16 < vec_of_vec_size (maxfd c) -> get (vov s) r w = true ->
    w < vec_size (maxfd c) /\ (vec s r w <> 0%Z \/ (r = base_idx s /\ S w));
  wi_sum2 : forall r w, r < 128 -> w < vec_size (maxfd c) -> vec s r w <> 0%Z -> get (vov s) r w = true;
  wi_tidx : forall f, own z f = true -> tidx s f = match pend z f with Some n => n mod 128 | None => UNUSED end;
  wi_pend : forall f n, pend z f = Some n -> f < maxfd c /\ own z f = true /\ slot z <= n <= slot z + 127;
  wi_own : forall f, owned s f = own z f;
  wi_base : base_idx s = slot z mod 128;
  wi_time : base_time s = stime z;
  wi_now : now s = snow z;
  wi_log : wlog s = slog z }.

Lemma mod128 n : n mod 128 < 128.
Proof. apply Nat.mod_upper_bound. lia. Qed.
Lemma mod128_unused n : n mod 128 <> UNUSED.
Proof. pose proof (mod128 n). unfold UNUSED. lia. Qed.
Lemma mod128_inj a b : a <= b <= a + 127 -> b mod 128 = a mod 128 -> b = a.
Proof.
  intros H E. pose proof (Nat.div_mod a 128 ltac:(lia)). pose proof (Nat.div_mod b 128 ltac:(lia)).
  pose proof (mod128 a). nia.
Qed.

Lemma clear_ok c D S s z f : WI c D S s z -> f < maxfd c -> own z f = true ->
  (pend z f = Some (slot z) -> forall d, D d -> d / 16 <> f / 16) ->
  exists s', clear_timeout c s f = Ok s' /\ WI c D S s' (with_pend z (upd (pend z) f None)).
Proof.
  intros H Hf Ho Hd. pose proof H as [VB SB BI S1 S2 TI PE OW BA TM NW LG].
  pose proof (fd_word _ _ Hf) as Hw. pose proof (fd_sum _ _ Hw) as Hs.
  unfold clear_timeout. rewrite (TI f Ho).
  destruct (pend z f) as [n|] eqn:Ep.
  2:{ rewrite Nat.eqb_refl. exists s. split; auto. constructor; auto; cbn [pend with_pend own slot stime snow slog].
      - intros r g Hr Hg. rewrite (BI r g Hr Hg). unfold upd. destruct (Nat.eqb_spec g f) as [->|]; [|tauto].
        rewrite Ep. split; intros [(n & E & _)|H1]; try discriminate; auto.
      - intros g Hg. rewrite (TI g Hg). unfold upd. destruct (Nat.eqb_spec g f) as [->|]; auto. now rewrite Ep.
      - intros g n E. unfold upd in E. destruct (Nat.eqb g f); [discriminate|]. now apply PE. }
  destruct (Nat.eqb_spec (n mod 128) UNUSED) as [E|_]; [now apply mod128_unused in E|].
  set (r0 := n mod 128). assert (Hr0 : r0 < 128) by apply mod128.
  rewrite rd2_ok by auto. cbn [bind]. rewrite wr2_ok by auto. cbn [bind].
  set (v' := upd2 (vec s) r0 (f / 16) (Z.ldiff (vec s r0 (f / 16)) (mask f))).
  assert (VB' : tbounded v') by (apply upd2_bounded; auto; apply ldiff_bounded; [apply VB|apply mask_bounded]).
  assert (G : forall r g, get v' r g = get (vec s) r g && negb ((r =? r0) && (g =? f))) by (intros; apply get_clear).
  assert (Hn : forall m, pend z f = Some m -> m = n) by (intros; congruence).
  assert (NZ : v' r0 (f / 16) = Z.ldiff (vec s r0 (f / 16)) (mask f)) by apply upd2_same.
  assert (ND : ~ (r0 = base_idx s /\ D f)).
  { intros [E1 E2]. rewrite BA in E1. destruct (PE f n Ep) as (_ & _ & R).
    assert (n = slot z) by (apply mod128_inj; auto). subst n. apply (Hd eq_refl f E2). reflexivity. }
  assert (BI' : forall r g, r < 128 -> g / 16 < vec_size (maxfd c) ->
     (get v' r g = true <-> ((exists m, upd (pend z) f None g = Some m /\ m mod 128 = r) \/ (r = base_idx s /\ D g)))).
  { intros r g Hr Hg. rewrite G, andb_true_iff, negb_true_iff, (BI r g Hr Hg). unfold upd.
    destruct (Nat.eqb_spec g f) as [->|Ng].
    - rewrite andb_true_r. destruct (Nat.eqb_spec r r0) as [->|Nr].
      + split; [intros [_ X]; discriminate|]. intros [(m & X & _)|X]; [discriminate|]. now apply ND in X.
      + split; [|intros [(m & X & _)|X]; [discriminate|]; split; auto].
        intros [[(m & X & Y)|X] _]; auto. rewrite Ep in X. injection X as <-. now apply Nr in Y || (exfalso; apply Nr; symmetry; exact Y).
    - rewrite andb_false_r. tauto. }
  (* vec' is zero somewhere only where vec was, or at the cleared word *)
  assert (VZ : forall r w, vec s r w <> 0%Z -> v' r w = 0%Z -> r = r0 /\ w = f / 16).
  { intros r w N Z. unfold v', upd2 in Z. destruct (Nat.eqb_spec r r0) as [->|]; [|contradiction].
    destruct (Nat.eqb_spec w (f / 16)) as [->|]; [auto|contradiction]. }
  assert (VN : forall r w, v' r w <> 0%Z -> vec s r w <> 0%Z).
  { intros r w N. apply (word_nonzero_get _ _ _ VB') in N. destruct N as (g & E & Gg). rewrite G in Gg.
    apply andb_true_iff in Gg. apply (word_nonzero_get _ _ _ VB). exists g. tauto. }
  destruct (Z.eqb_spec (Z.ldiff (vec s r0 (f / 16)) (mask f)) 0) as [E0|E0].
  - cbn [set_vec vov tidx vec base_idx owned base_time now wlog]. rewrite (TI f Ho), Ep. fold r0.
    rewrite rd2_ok by auto. cbn [bind]. rewrite wr2_ok by auto. cbn [bind].
    eexists. split; [reflexivity|].
    set (u' := upd2 (vov s) r0 (f / 16 / 16) (Z.ldiff (vov s r0 (f / 16 / 16)) (mask (f / 16)))).
    assert (GU : forall r w, get u' r w = get (vov s) r w && negb ((r =? r0) && (w =? f / 16))) by (intros; apply get_clear).
    constructor; cbn [set_tidx set_vov set_vec vec vov tidx owned base_idx base_time now wlog with_pend pend own slot stime snow slog]; auto.
    + apply upd2_bounded; auto. apply ldiff_bounded; [apply SB|apply mask_bounded].
    + intros r w Hr Hw2 Gw. rewrite GU in Gw. apply andb_true_iff in Gw. destruct Gw as [Gw Gn].
      destruct (S1 r w Hr Hw2 Gw) as [L [N|N]]; split; auto.
      destruct (Z.eq_dec (v' r w) 0) as [Z0|]; auto. destruct (VZ r w N Z0) as [-> ->].
      rewrite !Nat.eqb_refl in Gn. discriminate.
    + intros r w Hr Hw2 N. rewrite GU, (S2 r w Hr Hw2 (VN r w N)). cbn [andb]. apply negb_true_iff.
      destruct (Nat.eqb_spec r r0) as [->|]; auto. destruct (Nat.eqb_spec w (f / 16)) as [->|]; auto. exfalso. apply N. now rewrite NZ.
    + intros g Hg. unfold upd. destruct (Nat.eqb g f); auto.
    + intros g m E. unfold upd in E. destruct (Nat.eqb g f); [discriminate|]. now apply PE.
  - cbn [bind]. eexists. split; [reflexivity|].
    constructor; cbn [set_tidx set_vov set_vec vec vov tidx owned base_idx base_time now wlog with_pend pend own slot stime snow slog]; auto.
    + intros r w Hr Hw2 Gw. destruct (S1 r w Hr Hw2 Gw) as [L [N|N]]; split; auto.
      destruct (Z.eq_dec (v' r w) 0) as [Z0|]; auto. destruct (VZ r w N Z0) as [-> ->]. rewrite NZ in Z0. contradiction.
    + intros g Hg. unfold upd. destruct (Nat.eqb g f); auto.
    + intros g m E. unfold upd in E. destruct (Nat.eqb g f); [discriminate|]. now apply PE.
Qed.

Lemma slot_delta_bound r n s b : slot_delta r n s b <= 127.
Proof.
  unfold slot_delta. destruct ((_ <? 0)%Z || _)%bool eqn:E; [lia|].
  apply orb_false_iff in E. destruct E as [E1 E2]. apply Z.ltb_ge in E1. apply Z.leb_gt in E2. lia.
Qed.

Lemma arm_ok c D S s z f secs : WI c D S s z -> f < maxfd c -> own z f = true -> pend z f = None -> (res c > 0)%Z ->
  exists s', arm_timeout c s f secs = Ok s' /\
    WI c D S s' (with_pend z (upd (pend z) f (Some (slot z + slot_delta (res c) (snow z) secs (stime z))))).
Proof.
  intros H Hf Ho Ep Hr. pose proof H as [VB SB BI S1 S2 TI PE OW BA TM NW LG].
  pose proof (fd_word _ _ Hf) as Hw. pose proof (fd_sum _ _ Hw) as Hs.
  unfold arm_timeout. destruct (Z.eqb_spec (res c) 0); [lia|]. rewrite NW, TM, BA.
  set (dl := slot_delta (res c) (snow z) secs (stime z)). pose proof (slot_delta_bound (res c) (snow z) secs (stime z)) as Hdl. fold dl in Hdl.
  rewrite Nat.add_mod_idemp_l by lia. set (r0 := (slot z + dl) mod 128). assert (Hr0 : r0 < 128) by apply mod128.
  cbn [set_tidx vec vov].
  rewrite rd2_ok by auto. cbn [bind]. rewrite wr2_ok by auto. cbn [bind].
  rewrite rd2_ok by auto. cbn [bind]. rewrite wr2_ok by auto. cbn [bind].
  eexists. split; [reflexivity|].
  set (v' := upd2 (vec s) r0 (f / 16) (Z.lor (vec s r0 (f / 16)) (mask f))).
  set (u' := upd2 (vov s) r0 (f / 16 / 16) (Z.lor (vov s r0 (f / 16 / 16)) (mask (f / 16)))).
  assert (VB' : tbounded v') by (apply upd2_bounded; auto; apply lor_bounded; [apply VB|apply mask_bounded]).
  assert (G : forall r g, get v' r g = get (vec s) r g || ((r =? r0) && (g =? f))) by (intros; apply get_set).
  assert (GU : forall r w, get u' r w = get (vov s) r w || ((r =? r0) && (w =? f / 16))) by (intros; apply get_set).
  assert (VN : forall r w, vec s r w <> 0%Z -> v' r w <> 0%Z).
  { intros r w N. apply (word_nonzero_get _ _ _ VB) in N. destruct N as (g & E & Gg).
    apply (word_nonzero_get _ _ _ VB'). exists g. rewrite G, Gg. auto. }
  constructor; cbn [set_tidx set_vov set_vec vec vov tidx owned base_idx base_time now wlog with_pend pend own slot stime snow slog]; auto.
  - apply upd2_bounded; auto. apply lor_bounded; [apply SB|apply mask_bounded].
  - intros r g Hr1 Hg. rewrite G, orb_true_iff, andb_true_iff, !Nat.eqb_eq, (BI r g Hr1 Hg). unfold upd.
    destruct (Nat.eqb_spec g f) as [->|Ng].
    + rewrite Ep. split.
      * intros [[(m & X & _)|X]|[-> _]]; [discriminate|now right|]. left. exists (slot z + dl). auto.
      * intros [(m & X & Y)|X]; [|auto]. injection X as <-. right. auto.
    + tauto.
  - intros r w Hr1 Hw2 Gw. rewrite GU in Gw. apply orb_true_iff in Gw. destruct Gw as [Gw|Gw].
    + destruct (S1 r w Hr1 Hw2 Gw) as [L [N|N]]; split; auto.
    + apply andb_true_iff in Gw. rewrite !Nat.eqb_eq in Gw. destruct Gw as [-> ->]. split; auto. left.
      apply (word_nonzero_get _ _ _ VB'). exists f. rewrite G, !Nat.eqb_refl. cbn. rewrite orb_true_r. auto.
  - intros r w Hr1 Hw2 N. rewrite GU.
    destruct (Z.eq_dec (vec s r w) 0) as [Z0|N0]; [|now rewrite (S2 r w Hr1 Hw2 N0)].
    unfold v', upd2 in N. destruct ((r =? r0) && (w =? f / 16)); [apply orb_true_r|contradiction].
  - intros g Hg. unfold upd. destruct (Nat.eqb_spec g f) as [->|]; auto.
  - intros g m E. unfold upd in E. destruct (Nat.eqb_spec g f) as [->|]; [|now apply PE].
    injection E as <-. repeat split; auto; lia.
Qed.

(* ================= actions ================= *)
(* inside a callback for k: the slot is over, reported bits lie in k's word at or before k *)
Definition in_cb (c : cfg) (D : nat -> Prop) (cur : option nat) (z : wspec) : Prop :=
  match cur with
  | None => forall d, ~ D d
  | Some k => (forall d, D d -> d / 16 = k / 16) /\ (stime z + res c <= snow z)%Z /\
              (forall f, f / 16 = k / 16 -> f <= k -> is_slot z f = false)
  end.

(* nothing but pending slots and registration changes; inside a callback, nothing enters the current
   slot, and nothing leaves it in the current word *)
Definition frame (cur : option nat) (z z' : wspec) : Prop :=
  slot z' = slot z /\ stime z' = stime z /\ snow z' = snow z /\ slog z' = slog z /\
  match cur with
  | None => True
  | Some k => (forall f, is_slot z' f = true -> is_slot z f = true) /\
              (forall f, f / 16 = k / 16 -> k < f -> is_slot z' f = is_slot z f)
  end.

Lemma frame_refl cur z : frame cur z z.
Proof. unfold frame. destruct cur; repeat split; auto. Qed.
Lemma frame_trans cur a b d : frame cur a b -> frame cur b d -> frame cur a d.
Proof.
  unfold frame. intros (A1 & A2 & A3 & A4 & A5) (B1 & B2 & B3 & B4 & B5).
  repeat split; try congruence. destruct cur; auto. destruct A5 as [A5 A6], B5 as [B5 B6].
  split; auto. intros f H1 H2. rewrite B6, A6; auto.
Qed.
Lemma in_cb_frame c D cur z z' : in_cb c D cur z -> frame cur z z' -> in_cb c D cur z'.
Proof.
  destruct cur as [k|]; auto. intros (H1 & H2 & H3) (F1 & F2 & F3 & F4 & F5 & F6).
  repeat split; auto; [congruence|]. intros f E L. destruct (is_slot z' f) eqn:X; auto. apply F5 in X. rewrite H3 in X; auto.
Qed.

Lemma is_slot_iff z f : is_slot z f = true <-> pend z f = Some (slot z).
Proof. unfold is_slot. destruct (pend z f) as [n|]; [rewrite Nat.eqb_eq|]; split; congruence. Qed.

Lemma slot_delta_pos c z secs : (res c > 0)%Z -> (secs > 0)%Z -> (stime z + res c <= snow z)%Z ->
  1 <= slot_delta (res c) (snow z) secs (stime z).
Proof.
  intros Hr Hs Ht. unfold slot_delta.
  assert (1 <= Z.quot (snow z + secs - stime z) (res c))%Z.
  { rewrite Z.quot_div_nonneg by lia. apply Z.div_le_lower_bound; lia. }
  destruct ((_ <? 0)%Z || _)%bool; lia.
Qed.

Lemma frame_touch c cur z f p' o' : (res c > 0)%Z ->
  (forall k, cur = Some k -> p' = None \/ exists n, p' = Some n /\ n <> slot z) ->
  forbidden z cur f = false ->
  frame cur z {| pend := upd (pend z) f p'; own := o'; slot := slot z; stime := stime z; snow := snow z; slog := slog z |}.
Proof.
  intros Hr Hp Hf. unfold frame. cbn [slot stime snow slog]. repeat split; auto. destruct cur as [k|]; auto.
  assert (N : forall z', pend z' f = p' -> slot z' = slot z -> is_slot z' f = false).
  { intros z' E1 E2. unfold is_slot. rewrite E1, E2. destruct (Hp k eq_refl) as [->|(n & -> & Ne)]; auto. now apply Nat.eqb_neq. }
  split.
  - intros g. destruct (Nat.eq_dec g f) as [->|Ne].
    + rewrite N; [discriminate| |]; cbn; auto. apply upd_same.
    + unfold is_slot. cbn. now rewrite upd_other by auto.
  - intros g E L. destruct (Nat.eq_dec g f) as [->|Ne].
    + rewrite N; cbn; auto using upd_same. cbn [forbidden] in Hf. apply Nat.eqb_eq in E. apply Nat.ltb_lt in L.
      rewrite E, L in Hf. cbn in Hf. auto.
    + unfold is_slot. cbn. now rewrite upd_other by auto.
Qed.

(* set_timeout, given the side conditions for clearing *)
Lemma set_ok c D S cur s z f secs : WI c D S s z -> (res c > 0)%Z -> in_cb c D cur z -> f < maxfd c -> (0 <= secs)%Z ->
  forbidden z cur f = false ->
  exists s', set_timeout c s f secs = Ok s' /\ WI c D S s' (spec_set c z f secs) /\ frame cur z (spec_set c z f secs).
Proof.
  intros H Hr Hc Hf Hs Hb. unfold set_timeout, spec_set.
  replace (f <? maxfd c) with true by (symmetry; now apply Nat.ltb_lt).
  rewrite (wi_own _ _ _ _ _ H). destruct (own z f) eqn:Ho; [|exists s; auto using frame_refl].
  destruct (clear_ok c D S s z f H Hf Ho) as (s1 & -> & H1).
  { intros Ep d Hd E. destruct cur as [k|]; cbn [in_cb forbidden] in *; [|eapply Hc; eauto].
    destruct Hc as (C1 & C2 & C3). apply is_slot_iff in Ep. specialize (C1 d Hd).
    destruct (Nat.lt_ge_cases k f) as [L|L].
    - apply Nat.ltb_lt in L. rewrite L, Ep in Hb. rewrite <- E, C1, Nat.eqb_refl in Hb. discriminate.
    - rewrite C3 in Ep; [discriminate|congruence|auto]. }
  cbn [bind]. destruct (Z.eqb_spec secs 0) as [->|Ns].
  - exists s1. split; auto. split; auto. apply (frame_touch c); auto.
  - destruct (arm_ok c D S s1 _ f secs H1 Hf Ho) as (s2 & E & H2); auto; [cbn; apply upd_same|].
    exists s2. split; auto. cbn [with_pend slot snow stime pend] in *. split.
    + destruct H2 as [VB SB BI S1 S2 TI PE OW BA TM NW LG].
      assert (U : forall g v, upd (upd (pend z) f None) f v g = upd (pend z) f v g).
      { intros g v. unfold upd. destruct (Nat.eqb g f); auto. }
      constructor; auto; cbn [with_pend pend own slot stime snow slog] in *.
      * intros r g. rewrite <- (U g). apply BI.
      * intros g. rewrite <- (U g). apply TI.
      * intros g n. rewrite <- (U g). apply PE.
    + apply (frame_touch c); auto. intros k ->. right. eexists. split; [reflexivity|].
      cbn [in_cb] in Hc. destruct Hc as (_ & C2 & _). pose proof (slot_delta_pos c z secs Hr ltac:(lia) C2). lia.
Qed.

Lemma act_ok c D S cur s z a z' : WI c D S s z -> (res c > 0)%Z -> in_cb c D cur z -> spec_act c cur z a = Some z' ->
  exists s', do_act c s a = Ok s' /\ WI c D S s' z' /\ frame cur z z'.
Proof.
  intros H Hr Hc. destruct a as [f secs|f secs|f]; cbn [spec_act do_act].
  - destruct ((f <? maxfd c) && (0 <=? secs)%Z && negb (forbidden z cur f)) eqn:G; [|discriminate]. intros [= <-].
    rewrite !andb_true_iff, Nat.ltb_lt, Z.leb_le, negb_true_iff in G. destruct G as [[G1 G2] G3]. now apply set_ok.
  - destruct ((f <? maxfd c) && (0 <=? secs)%Z && negb (own z f)) eqn:G; [|discriminate]. intros [= <-].
    rewrite !andb_true_iff, Nat.ltb_lt, Z.leb_le, negb_true_iff in G. destruct G as [[G1 G2] G3].
    replace (f <? maxfd c) with true by (symmetry; now apply Nat.ltb_lt).
    set (s0 := set_tidx _ _). set (z0 := with_own z _).
    assert (Ep : pend z f = None).
    { destruct (pend z f) as [n|] eqn:E; auto. apply (wi_pend _ _ _ _ _ H) in E. destruct E as (_ & E & _). congruence. }
    assert (H0 : WI c D S s0 z0).
    { destruct H as [VB SB BI S1 S2 TI PE OW BA TM NW LG]. constructor; auto; cbn [s0 z0 set_tidx set_owned tidx owned with_own pend own slot].
      - intros g. unfold upd. destruct (Nat.eqb_spec g f) as [->|]; auto. now rewrite Ep.
      - intros g n E. destruct (PE g n E) as (A & B & C). repeat split; auto; try lia. unfold upd. destruct (Nat.eqb g f); auto.
      - intros g. unfold upd. destruct (Nat.eqb g f); auto. }
    destruct (set_ok c D S cur s0 z0 f secs H0 Hr) as (s' & E & H' & F); auto.
    unfold forbidden, is_slot. cbn [z0 with_own pend slot]. rewrite Ep. destruct cur; auto. apply andb_false_r.
    exists s'. auto.
  - destruct ((f <? maxfd c) && negb (forbidden z cur f)) eqn:G; [|discriminate].
    rewrite !andb_true_iff, Nat.ltb_lt, negb_true_iff in G. destruct G as [G1 G3].
    replace (f <? maxfd c) with true by (symmetry; now apply Nat.ltb_lt).
    rewrite (wi_own _ _ _ _ _ H). destruct (own z f) eqn:Ho; intros [= <-]; [|exists s; auto using frame_refl].
    destruct (set_ok c D S cur s z f 0 H Hr Hc G1 ltac:(lia) G3) as (s' & -> & H' & F). cbn [bind].
    eexists. split; [reflexivity|]. unfold spec_set in H', F. rewrite Ho in H', F. cbn [Z.eqb] in H', F. split.
    + destruct H' as [VB SB BI S1 S2 TI PE OW BA TM NW LG]. constructor; auto; cbn [set_owned tidx owned with_own with_pend pend own slot] in *.
      * intros g. unfold upd at 1. destruct (Nat.eqb_spec g f) as [->|]; [discriminate|]. apply TI.
      * intros g n E. destruct (PE g n E) as (A & B & C). repeat split; auto; try lia. unfold upd at 1.
        destruct (Nat.eqb_spec g f) as [->|]; auto. rewrite upd_same in E. discriminate.
      * intros g. unfold upd. destruct (Nat.eqb g f); auto.
    + exact F.
Qed.

Lemma acts_ok c D S cur l : forall s z z', WI c D S s z -> (res c > 0)%Z -> in_cb c D cur z -> spec_acts c cur z l = Some z' ->
  exists s', do_acts c s l = Ok s' /\ WI c D S s' z' /\ frame cur z z'.
Proof.
  induction l as [|a l IH]; intros s z z' H Hr Hc; cbn [spec_acts do_acts].
  - intros [= <-]. exists s. auto using frame_refl.
  - destruct (spec_act c cur z a) as [z1|] eqn:E; [|discriminate]. intros E2.
    destruct (act_ok _ _ _ _ _ _ _ _ H Hr Hc E) as (s1 & -> & H1 & F1). cbn [bind].
    destruct (IH s1 z1 z' H1 Hr (in_cb_frame _ _ _ _ _ Hc F1) E2) as (s2 & E3 & H2 & F2).
    exists s2. split; auto. split; auto. eapply frame_trans; eauto.
Qed.

(* ================= loops ================= *)
Lemma fire_none n c cb : forall f z, (forall g, f <= g < f + n -> is_slot z g = false) -> spec_fire n c cb f z = Some z.
Proof.
  induction n as [|n IH]; intros f z H; cbn [spec_fire]; auto.
  rewrite H by lia. apply IH. intros g Hg. apply H. lia.
Qed.
Lemma fire_app a b c cb : forall f z, spec_fire (a + b) c cb f z =
  match spec_fire a c cb f z with None => None | Some z1 => spec_fire b c cb (f + a) z1 end.
Proof.
  induction a as [|a IH]; intros f z; cbn [spec_fire Nat.add].
  - now rewrite Nat.add_0_r.
  - replace (f + S a) with (S f + a) by lia. destruct (is_slot z f); [|apply IH].
    destruct (spec_acts _ _ _ _); auto.
Qed.

(* what a run of spec_fire may change *)
Definition sframe (z z' : wspec) : Prop :=
  slot z' = slot z /\ stime z' = stime z /\ snow z' = snow z /\ (forall f, is_slot z' f = true -> is_slot z f = true).
Lemma sframe_refl z : sframe z z.
Proof. repeat split; auto. Qed.
Lemma sframe_trans a b d : sframe a b -> sframe b d -> sframe a d.
Proof. intros (A1 & A2 & A3 & A4) (B1 & B2 & B3 & B4). repeat split; try congruence. auto. Qed.

Definition fired1 (z : wspec) (k : nat) : wspec :=
  {| pend := upd (pend z) k None; own := own z; slot := slot z; stime := stime z; snow := snow z; slog := slog z ++ [k] |}.
Lemma fired1_slot z k f : is_slot (fired1 z k) f = if Nat.eqb f k then false else is_slot z f.
Proof. unfold is_slot, fired1, upd. cbn. destruct (Nat.eqb f k); auto. Qed.

Lemma word_ok c cb Q j : forall n s z v D z', n <= 16 ->
  WI c D Q s z -> (res c > 0)%Z -> j < vec_size (maxfd c) -> (stime z + res c <= snow z)%Z -> bounded16 v ->
  (forall d, D d -> d / 16 = j) ->
  (forall f, f / 16 = j -> f < j * 16 + (16 - n) -> is_slot z f = false) ->
  (forall t, t < 16 -> (bit v t = true <-> t < n /\ is_slot z (j * 16 + (16 - n) + t) = true)) ->
  spec_fire n c cb (j * 16 + (16 - n)) z = Some z' ->
  exists s' D', word_loop n c cb v (j * 16 + (16 - n)) s = Ok s' /\ WI c D' Q s' z' /\
    (forall d, D' d -> d / 16 = j) /\ sframe z z' /\ (forall f, f / 16 = j -> is_slot z' f = false).
Proof.
  induction n as [|n IH]; intros s z v D z' Hn H Hr Hj Ht Hv HD Hlo Hb E.
  - cbn [spec_fire] in E. injection E as <-.
    assert (v = 0%Z) as ->.
    { apply word_zero; auto. intros m Hm. destruct (bit v m) eqn:X; auto. apply Hb in X; [lia|auto]. }
    exists s, D. cbn [word_loop Z.eqb]. split; auto. split; auto. split; auto. split; [apply sframe_refl|].
    intros f Hf. apply Hlo; auto. destruct (f_div_mod f). rewrite Hf in *. lia.
  - cbn [word_loop]. destruct (Z.eqb_spec v 0) as [->|Nv].
    + assert (NS : forall f, f / 16 = j -> is_slot z f = false).
      { intros f Hf. destruct (f_div_mod f) as [Ef Lf]. rewrite Hf in Ef.
        destruct (Nat.lt_ge_cases f (j * 16 + (16 - S n))) as [L|L]; [auto|].
        destruct (is_slot z f) eqn:X; auto. exfalso.
        assert (B : bit 0 (f - (j * 16 + (16 - S n))) = true).
        { apply Hb; [lia|]. split; [lia|]. replace (j * 16 + (16 - S n) + (f - (j * 16 + (16 - S n)))) with f by lia. auto. }
        unfold bit in B. rewrite Z.testbit_0_l in B. discriminate. }
      rewrite fire_none in E.
      2:{ intros g Hg. apply NS. replace g with (j * 16 + (g - j * 16)) by lia. apply div_eq. lia. }
      injection E as <-. exists s, D. split; auto. split; auto. split; auto. split; [apply sframe_refl|auto].
    + set (k := j * 16 + (16 - S n)) in *. assert (Kj : k / 16 = j) by (apply div_eq; lia).
      replace (j * 16 + (16 - n)) with (S k) in IH by lia.
      rewrite top_bit.
      assert (Hb' : forall z1, (forall f, f / 16 = j -> k < f -> is_slot z1 f = is_slot z f) ->
         forall t, t < 16 -> (bit (shl v) t = true <-> t < n /\ is_slot z1 (S k + t) = true)).
      { intros z1 Hz t Ht1. rewrite shl_bit by auto. destruct (Nat.eqb_spec t 15) as [->|N15]; [split; [discriminate|lia]|].
        rewrite Hb by lia. replace (S k + t) with (k + S t) by lia. split; intros [A B]; split; try lia.
        - rewrite Hz; auto; [|lia]. replace (k + S t) with (j * 16 + (16 - S n + S t)) by (unfold k; lia). apply div_eq. lia.
        - rewrite <- Hz; auto; [|lia]. replace (k + S t) with (j * 16 + (16 - S n + S t)) by (unfold k; lia). apply div_eq. lia. }
      destruct (bit v 0) eqn:B0.
      * apply Hb in B0; [|lia]. destruct B0 as [_ B0]. rewrite Nat.add_0_r in B0.
        cbn [spec_fire] in E. rewrite B0 in E.
        pose proof (proj1 (is_slot_iff z k) B0) as Ep.
        destruct (wi_pend _ _ _ _ _ H k _ Ep) as (Kf & Ko & _).
        replace (k <? maxfd c) with true by (symmetry; now apply Nat.ltb_lt).
        change {| pend := upd (pend z) k None; own := own z; slot := slot z; stime := stime z; snow := snow z; slog := slog z ++ [k] |}
          with (fired1 z k) in E.
        destruct (spec_acts c (Some k) (fired1 z k) (cb (slog z) k)) as [z1|] eqn:EA; [|discriminate].
        set (D1 := fun d => D d \/ d = k).
        assert (H1 : WI c D1 Q (add_log (set_tidx s (upd (tidx s) k UNUSED)) k) (fired1 z k)).
        { destruct H as [VB SB BI S1 S2 TI PE OW BA TM NW LG].
          constructor; auto; cbn [add_log set_tidx vec vov tidx owned base_idx base_time now wlog fired1 pend own slot stime snow slog].
          - intros r g Hr1 Hg. rewrite (BI r g Hr1 Hg). unfold upd, D1. destruct (Nat.eqb_spec g k) as [->|Ne].
            + rewrite Ep. split.
              * intros [(m & [= <-] & X)|[X Y]]; right; split; auto. congruence.
              * intros [(m & X & _)|[-> _]]; [discriminate|]. left. exists (slot z). auto.
            + split; intros [X|[X Y]]; auto; right; split; auto. destruct Y; [auto|contradiction].
          - intros g. unfold upd. destruct (Nat.eqb g k); auto.
          - intros g m. unfold upd. destruct (Nat.eqb g k); [discriminate|]. apply PE.
          - now rewrite LG. }
        destruct (acts_ok c D1 Q (Some k) (cb (slog z) k) _ _ z1 H1 Hr) as (s1 & E1 & H2 & F); auto.
        { cbn [in_cb]. repeat split.
          - intros d [Hd| ->]; [rewrite HD; auto|auto].
          - exact Ht.
          - intros f Ef Lf. rewrite fired1_slot. destruct (Nat.eqb_spec f k); auto. apply Hlo; [congruence|]. lia. }
        cbn [add_log set_tidx wlog]. rewrite (wi_log _ _ _ _ _ H). rewrite E1. cbn [bind].
        destruct F as (F1 & F2 & F3 & F4 & F5 & F6). cbn [fired1 slot stime snow slog] in F1, F2, F3.
        edestruct (IH s1 z1 (shl v) D1 z') as (s' & D' & E' & H' & HD' & SF & NS); auto.
        -- lia.
        -- congruence.
        -- now apply shl_bounded.
        -- intros d [Hd| ->]; auto.
        -- intros f Ef Lf. destruct (is_slot z1 f) eqn:X; auto. apply F5 in X. rewrite fired1_slot in X.
           destruct (Nat.eqb_spec f k); [discriminate|]. rewrite Hlo in X; auto. lia.
        -- apply Hb'. intros f Ef Lf. rewrite F6 by (auto; congruence). rewrite fired1_slot.
           destruct (Nat.eqb_spec f k); auto. lia.
        -- exists s', D'. split; auto. split; auto. split; auto. split; auto.
           destruct SF as (X1 & X2 & X3 & X4). unfold sframe.
           split; [congruence|]. split; [congruence|]. split; [congruence|].
           intros f X. apply X4 in X. apply F5 in X. rewrite fired1_slot in X. destruct (Nat.eqb f k); [discriminate|auto].
      * cbn [bind]. assert (X : is_slot z k = false).
        { destruct (is_slot z k) eqn:X; auto. exfalso. enough (bit v 0 = true) by congruence. apply Hb; [lia|]. split; [lia|]. now rewrite Nat.add_0_r. }
        cbn [spec_fire] in E. rewrite X in E.
        edestruct (IH s z (shl v) D z') as (s' & D' & E' & H' & HD' & SF & NS); auto.
        -- lia.
        -- now apply shl_bounded.
        -- intros f Ef Lf. destruct (Nat.eq_dec f k) as [->|]; auto. apply Hlo; auto. lia.
        -- exists s', D'. auto.
Qed.

(* ---- spec-level: firing only empties the slot ---- *)
Lemma act_frame c k z a z' : (res c > 0)%Z -> (stime z + res c <= snow z)%Z -> (forall f n, pend z f = Some n -> own z f = true) ->
  spec_act c (Some k) z a = Some z' -> frame (Some k) z z' /\ (forall f n, pend z' f = Some n -> own z' f = true).
Proof.
  intros Hr Ht Ho. 
  assert (Set_ : forall z0 f secs, stime z0 = stime z -> snow z0 = snow z -> (0 <= secs)%Z -> forbidden z0 (Some k) f = false ->
     (forall g n, pend z0 g = Some n -> own z0 g = true) ->
     frame (Some k) z0 (spec_set c z0 f secs) /\ (forall g n, pend (spec_set c z0 f secs) g = Some n -> own (spec_set c z0 f secs) g = true)).
  { intros z0 f secs E1 E2 Hs Hb Ho0. unfold spec_set. destruct (own z0 f) eqn:Of; [|split; auto using frame_refl].
    split.
    - unfold with_pend. apply (frame_touch c); auto. intros k0 _. destruct (Z.eqb_spec secs 0); auto. right. eexists. split; [reflexivity|].
      pose proof (slot_delta_pos c z0 secs Hr ltac:(lia) ltac:(congruence)). lia.
    - intros g n. cbn [with_pend pend own]. unfold upd. destruct (Nat.eqb_spec g f) as [->|]; eauto. }
  destruct a as [f secs|f secs|f]; cbn [spec_act].
  - destruct ((f <? maxfd c) && (0 <=? secs)%Z && negb _) eqn:G; [|discriminate]. intros [= <-].
    rewrite !andb_true_iff, Z.leb_le, negb_true_iff in G. destruct G as [[G1 G2] G3]. now apply Set_.
  - destruct ((f <? maxfd c) && (0 <=? secs)%Z && negb (own z f)) eqn:G; [|discriminate]. intros [= <-].
    rewrite !andb_true_iff, Z.leb_le, negb_true_iff in G. destruct G as [[G1 G2] G3].
    apply (Set_ (with_own z (upd (own z) f true))); auto.
    + unfold forbidden, is_slot. cbn [with_own pend slot]. destruct (pend z f) eqn:E; [|apply andb_false_r].
      apply Ho in E. congruence.
    + intros g n E. cbn [with_own pend own] in *. unfold upd. destruct (Nat.eqb g f); eauto.
  - destruct ((f <? maxfd c) && negb _) eqn:G; [|discriminate]. rewrite andb_true_iff, negb_true_iff in G. destruct G as [G1 G2].
    destruct (own z f) eqn:Of; intros [= <-]; [|split; auto using frame_refl]. split.
    + unfold with_own, with_pend. cbn [pend own slot stime snow slog]. apply (frame_touch c); auto.
    + intros g n. cbn [with_own with_pend pend own]. unfold upd. destruct (Nat.eqb g f); [discriminate|]. eauto.
Qed.
Lemma acts_frame c k l : forall z z', (res c > 0)%Z -> (stime z + res c <= snow z)%Z -> (forall f n, pend z f = Some n -> own z f = true) ->
  spec_acts c (Some k) z l = Some z' -> frame (Some k) z z' /\ (forall f n, pend z' f = Some n -> own z' f = true).
Proof.
  induction l as [|a l IH]; intros z z' Hr Ht Ho; cbn [spec_acts].
  - intros [= <-]. auto using frame_refl.
  - destruct (spec_act c (Some k) z a) as [z1|] eqn:E; [|discriminate]. intros E2.
    destruct (act_frame _ _ _ _ _ Hr Ht Ho E) as [F1 O1]. pose proof F1 as (A1 & A2 & A3 & _).
    destruct (IH z1 z' Hr ltac:(lia) O1 E2) as [F2 O2]. split; auto. eapply frame_trans; eauto.
Qed.
Lemma fire_sframe n c cb : forall f z z', (res c > 0)%Z -> (stime z + res c <= snow z)%Z -> (forall f n, pend z f = Some n -> own z f = true) ->
  spec_fire n c cb f z = Some z' -> sframe z z' /\ (forall f n, pend z' f = Some n -> own z' f = true).
Proof.
  induction n as [|n IH]; intros f z z' Hr Ht Ho; cbn [spec_fire].
  - intros [= <-]. auto using sframe_refl.
  - destruct (is_slot z f); [|now apply IH].
    match goal with |- context [spec_acts ?a ?b ?d ?e] => change (spec_acts a b d e) with (spec_acts c (Some f) (fired1 z f) (cb (slog z) f)) end.
    destruct (spec_acts _ _ _ _) as [z1|] eqn:E; [|discriminate]. intros E2.
    assert (O0 : forall g m, pend (fired1 z f) g = Some m -> own (fired1 z f) g = true).
    { intros g m. cbn [fired1 pend own]. unfold upd. destruct (Nat.eqb g f); [discriminate|eauto]. }
    destruct (acts_frame c f (cb (slog z) f) (fired1 z f) z1 Hr Ht O0 E)
      as [(A1 & A2 & A3 & A4 & A5 & A6) O1].
    cbn [fired1 slot stime snow slog] in A1, A2, A3.
    destruct (IH _ z1 z' Hr ltac:(lia) O1 E2) as [(B1 & B2 & B3 & B4) O2].
    split; auto. split; [congruence|]. split; [congruence|]. split; [congruence|].
    intros g X. apply B4, A5 in X. rewrite fired1_slot in X. destruct (Nat.eqb g f); [discriminate|auto].
Qed.

(* ---- one summary word ---- *)
Definition none : nat -> Prop := fun _ => False.

(* the word of the current slot, read off the reference *)
Lemma cur_word c Q s z f : WI c none Q s z -> f / 16 < vec_size (maxfd c) ->
  get (vec s) (base_idx s) f = is_slot z f.
Proof.
  intros H Hf. pose proof (wi_bits _ _ _ _ _ H (base_idx s) f) as B. rewrite (wi_base _ _ _ _ _ H) in *.
  specialize (B (mod128 _) Hf). destruct (get (vec s) _ f).
  - symmetry. apply is_slot_iff. destruct (proj1 B eq_refl) as [(n & E & M)|[_ []]].
    rewrite E. f_equal. apply mod128_inj; auto. now apply (wi_pend _ _ _ _ _ H f).
  - destruct (is_slot z f) eqn:X; auto. apply is_slot_iff in X. apply B. left. eauto.
Qed.

Lemma zero_word c D Q s z j : WI c D Q s z -> j < vec_size (maxfd c) -> (forall d, D d -> d / 16 = j) ->
  (forall f, f / 16 = j -> is_slot z f = false) ->
  WI c none (fun w => Q w \/ w = j) (set_vec s (upd2 (vec s) (base_idx s) j 0)) z.
Proof.
  intros H Hj HD NS. pose proof H as [VB SB BI S1 S2 TI PE OW BA TM NW LG].
  constructor; auto; cbn [set_vec vec vov tidx owned base_idx base_time now wlog].
  - apply upd2_bounded; auto. apply bounded16_0.
  - intros r f Hr Hf. rewrite get_zero, andb_true_iff, negb_true_iff, BI by auto. split.
    + intros [[X|[X Y]] Z]; auto. exfalso. apply HD in Y. subst r. rewrite Y, !Nat.eqb_refl in Z. discriminate.
    + intros [X|[_ []]]. split; auto. destruct X as (n & E & M). apply not_true_is_false. intros Z.
      apply andb_true_iff in Z. rewrite !Nat.eqb_eq in Z. destruct Z as [Z1 Z2].
      assert (is_slot z f = true); [|rewrite NS in *; auto; discriminate].
      apply is_slot_iff. rewrite E. f_equal. apply mod128_inj; [now apply (PE f)|congruence].
  - intros r w Hr Hw G. destruct (S1 r w Hr Hw G) as [A B]. split; auto. unfold upd2.
    destruct (Nat.eqb_spec r (base_idx s)) as [->|Nr]; cbn [andb].
    + destruct (Nat.eqb_spec w j) as [->|]; auto. destruct B as [B|[_ B]]; auto.
    + destruct B as [B|[B _]]; auto; contradiction.
  - intros r w Hr Hw. unfold upd2. destruct (_ && _); [congruence|]. auto.
Qed.

Lemma sum_ok c cb i : forall n s z vv Q z', n <= 16 ->
  WI c none Q s z -> (res c > 0)%Z -> i < vec_of_vec_size (maxfd c) -> (stime z + res c <= snow z)%Z -> bounded16 vv ->
  (forall w, Q w -> w / 16 = i) ->
  (forall f, f / 16 / 16 = i -> f / 16 < i * 16 + (16 - n) -> is_slot z f = false) ->
  (forall t, t < 16 -> bit vv t = true -> t < n /\ i * 16 + (16 - n) + t < vec_size (maxfd c)) ->
  (forall t, t < n -> bit vv t = false -> forall f, f / 16 = i * 16 + (16 - n) + t -> is_slot z f = false) ->
  spec_fire (n * 16) c cb ((i * 16 + (16 - n)) * 16) z = Some z' ->
  exists s' Q', sum_loop n c cb vv (i * 16 + (16 - n)) s = Ok s' /\ WI c none Q' s' z' /\
    (forall w, Q' w -> w / 16 = i) /\ (forall f, f / 16 / 16 = i -> is_slot z' f = false).
Proof.
  induction n as [|n IH]; intros s z vv Q z' Hn H Hr Hi Ht Hv HQ Hlo Hb1 Hb2 E.
  - cbn [spec_fire Nat.mul] in E. injection E as <-.
    assert (vv = 0%Z) as ->.
    { apply word_zero; auto. intros m Hm. destruct (bit vv m) eqn:X; auto. apply Hb1 in X; [lia|auto]. }
    exists s, Q. cbn [sum_loop Z.eqb]. split; auto. split; auto. split; auto.
    intros f Hf. apply Hlo; auto. destruct (f_div_mod (f / 16)). rewrite Hf in *. lia.
  - assert (Div : forall m, m < 16 -> (i * 16 + m) / 16 = i) by (intros; now apply div_eq).
    cbn [sum_loop]. destruct (Z.eqb_spec vv 0) as [->|Nv].
    + assert (NS : forall f, f / 16 / 16 = i -> is_slot z f = false).
      { intros f Hf. destruct (f_div_mod (f / 16)) as [Ef Lf]. rewrite Hf in Ef.
        destruct (Nat.lt_ge_cases (f / 16) (i * 16 + (16 - S n))) as [L|L]; [auto|].
        apply (Hb2 (f / 16 - (i * 16 + (16 - S n)))); [lia| |lia]. unfold bit. apply Z.testbit_0_l. }
      rewrite fire_none in E.
      2:{ intros g Hg. apply NS. set (j := i * 16 + (16 - S n)) in *.
          assert (j <= g / 16) by (apply Nat.div_le_lower_bound; lia).
          assert (g / 16 < i * 16 + 16) by (apply Nat.div_lt_upper_bound; lia).
          replace (g / 16) with (i * 16 + (g / 16 - i * 16)) by lia. apply Div. lia. }
      injection E as <-. exists s, Q. auto.
    + set (j := i * 16 + (16 - S n)) in *. assert (Ji : j / 16 = i) by (apply Div; lia).
      replace (i * 16 + (16 - n)) with (S j) in IH by lia.
      replace (S n * 16) with (16 + n * 16) in E by lia. rewrite fire_app in E.
      destruct (spec_fire 16 c cb (j * 16) z) as [z1|] eqn:E1; [|discriminate].
      replace (j * 16 + 16) with (S j * 16) in E by lia.
      assert (Ho : forall f m, pend z f = Some m -> own z f = true) by (intros f m X; exact (proj1 (proj2 (wi_pend _ _ _ _ _ H f m X)))).
      destruct (fire_sframe _ _ _ _ _ _ Hr Ht Ho E1) as [SF _]. pose proof SF as (SF1 & SF2 & SF3 & SF4).
      assert (Step : forall s1 Q1, WI c none Q1 s1 z1 -> (forall w, Q1 w -> w / 16 = i) ->
        (forall f, f / 16 = j -> is_slot z1 f = false) ->
        exists s' Q', sum_loop n c cb (shl vv) (S j) s1 = Ok s' /\ WI c none Q' s' z' /\
          (forall w, Q' w -> w / 16 = i) /\ (forall f, f / 16 / 16 = i -> is_slot z' f = false)).
      { intros s1 Q1 H1 HQ1 NS1. apply (IH s1 z1 (shl vv) Q1 z'); auto.
        - lia.
        - congruence.
        - now apply shl_bounded.
        - intros f Ef Lf. destruct (Nat.eq_dec (f / 16) j) as [Ej|Nj]; auto.
          destruct (is_slot z1 f) eqn:X; auto. apply SF4 in X. rewrite Hlo in X; auto. lia.
        - intros t Lt. rewrite shl_bit by auto. destruct (Nat.eqb_spec t 15) as [->|N15]; [discriminate|].
          intros B. apply Hb1 in B; [|lia]. lia.
        - intros t Lt B f Ef. rewrite shl_bit in B by lia. destruct (Nat.eqb_spec t 15) as [->|N15]; [lia|].
          destruct (is_slot z1 f) eqn:X; auto. apply SF4 in X. rewrite (Hb2 (S t)) in X; auto; lia. }
      rewrite top_bit. destruct (bit vv 0) eqn:B0.
      * apply Hb1 in B0; [|lia]. destruct B0 as [_ B0]. rewrite Nat.add_0_r in B0.
        assert (Bi : base_idx s < 128) by (rewrite (wi_base _ _ _ _ _ H); apply mod128).
        rewrite rd2_ok by auto. cbn [bind].
        destruct (word_ok c cb Q j 16 s z (vec s (base_idx s) j) none z1) as (s2 & D2 & E2 & H2 & HD2 & _ & NS2); auto.
        -- apply (wi_vb _ _ _ _ _ H).
        -- intros d [].
        -- intros f Ef Lf. destruct (f_div_mod f). rewrite Ef in *. lia.
        -- intros t Lt. replace (j * 16 + (16 - 16) + t) with (j * 16 + t) by lia.
           rewrite <- (cur_word c Q s z) by (auto; now rewrite div_eq). rewrite get_at by auto. tauto.
        -- replace (j * 16 + (16 - 16)) with (j * 16) by lia. exact E1.
        -- replace (j * 16 + (16 - 16)) with (j * 16) in E2 by lia. rewrite E2. cbn [bind].
           rewrite wr2_ok; [|rewrite (wi_base _ _ _ _ _ H2); apply mod128|auto]. cbn [bind].
           apply (Step _ (fun w => Q w \/ w = j)); auto.
           ++ apply (zero_word c D2); auto.
           ++ intros w [Hw| ->]; auto.
      * cbn [bind]. assert (NS : forall f, f / 16 = j -> is_slot z f = false).
        { intros f Ef. apply (Hb2 0); auto; lia. }
        rewrite fire_none in E1.
        2:{ intros g Hg. apply NS. replace g with (j * 16 + (g - j * 16)) by lia. apply div_eq. lia. }
        injection E1 as <-. apply (Step s Q); auto.
Qed.

Lemma zero_sum c Q s z i : WI c none Q s z -> i < vec_of_vec_size (maxfd c) -> (forall w, Q w -> w / 16 = i) ->
  (forall f, f / 16 / 16 = i -> is_slot z f = false) ->
  WI c none none (set_vov s (upd2 (vov s) (base_idx s) i 0)) z.
Proof.
  intros H Hi HQ NS. pose proof H as [VB SB BI S1 S2 TI PE OW BA TM NW LG].
  constructor; auto; cbn [set_vov vec vov tidx owned base_idx base_time now wlog].
  - apply upd2_bounded; auto. apply bounded16_0.
  - intros r w Hr Hw. rewrite get_zero, andb_true_iff, negb_true_iff. intros [G N].
    destruct (S1 r w Hr Hw G) as [A [B|[B1 B2]]]; auto.
    exfalso. apply HQ in B2. subst r. rewrite B2, !Nat.eqb_refl in N. discriminate.
  - intros r w Hr Hw N. rewrite get_zero, (S2 r w Hr Hw N). cbn [andb]. apply negb_true_iff. apply not_true_is_false.
    intros Z. apply andb_true_iff in Z. rewrite !Nat.eqb_eq in Z. destruct Z as [-> Z2]. apply N.
    apply word_zero_get; auto. intros f Ef. rewrite (cur_word c Q s z f H) by (rewrite Ef; auto). apply NS. congruence.
Qed.

Lemma slot_ok c cb : forall todo i s z z', i + todo = vec_of_vec_size (maxfd c) ->
  WI c none none s z -> (res c > 0)%Z -> (stime z + res c <= snow z)%Z ->
  (forall f, f / 16 / 16 < i -> is_slot z f = false) ->
  spec_fire (todo * 256) c cb (i * 256) z = Some z' ->
  exists s', slot_loop todo c cb i s = Ok s' /\ WI c none none s' z' /\ (forall f, is_slot z' f = false).
Proof.
  assert (D256 : forall f, f / 16 / 16 * 256 <= f < f / 16 / 16 * 256 + 256).
  { intros f. destruct (f_div_mod f), (f_div_mod (f / 16)). lia. }
  induction todo as [|todo IH]; intros i s z z' Hi H Hr Ht Hlo E.
  - cbn [spec_fire Nat.mul] in E. injection E as <-. exists s. split; auto. split; auto. intros f.
    destruct (is_slot z f) eqn:X; auto. pose proof X as Y. apply is_slot_iff in Y.
    apply (wi_pend _ _ _ _ _ H) in Y. rewrite Hlo in X; [discriminate|].
    rewrite Nat.add_0_r in Hi. subst i. apply fd_sum, fd_word. lia.
  - cbn [slot_loop]. rewrite rd2_ok; [|rewrite (wi_base _ _ _ _ _ H); apply mod128|lia]. cbn [bind].
    replace (S todo * 256) with (16 * 16 + todo * 256) in E by lia. rewrite fire_app in E.
    destruct (spec_fire (16 * 16) c cb (i * 256) z) as [z1|] eqn:E1; [|discriminate].
    replace (i * 256 + 16 * 16) with (S i * 256) in E by lia.
    assert (Ho : forall f m, pend z f = Some m -> own z f = true) by (intros f m X; exact (proj1 (proj2 (wi_pend _ _ _ _ _ H f m X)))).
    destruct (fire_sframe _ _ _ _ _ _ Hr Ht Ho E1) as [(SF1 & SF2 & SF3 & SF4) _].
    assert (Bi : base_idx s < 128) by (rewrite (wi_base _ _ _ _ _ H); apply mod128).
    assert (Step : forall s1, WI c none none s1 z1 -> (forall f, f / 16 / 16 = i -> is_slot z1 f = false) ->
      exists s', slot_loop todo c cb (S i) s1 = Ok s' /\ WI c none none s' z' /\ (forall f, is_slot z' f = false)).
    { intros s1 H1 N1. apply (IH (S i) s1 z1 z'); auto; [lia|congruence|]. intros f Lf.
      destruct (Nat.eq_dec (f / 16 / 16) i); auto. destruct (is_slot z1 f) eqn:X; auto. apply SF4 in X. rewrite Hlo in X; auto. lia. }
    assert (Bits : forall w, w / 16 = i -> get (vov s) (base_idx s) w = false -> forall f, f / 16 = w -> is_slot z f = false).
    { intros w Ew G f Ef. destruct (is_slot z f) eqn:X; auto. exfalso.
      assert (Fm : f < maxfd c) by (apply is_slot_iff in X; apply (wi_pend _ _ _ _ _ H) in X; exact (proj1 X)).
      assert (W : w < vec_size (maxfd c)) by (rewrite <- Ef; apply fd_word; exact Fm).
      enough (get (vov s) (base_idx s) w = true) by congruence.
      apply (wi_sum2 _ _ _ _ _ H); auto. apply word_nonzero_get; [apply (wi_vb _ _ _ _ _ H)|]. exists f. split; auto.
      rewrite (cur_word c none s z f H); auto. now rewrite Ef. }
    destruct (Z.eqb_spec (vov s (base_idx s) i) 0) as [Ez|Nz].
    + cbn [bind]. assert (NS : forall f, f / 16 / 16 = i -> is_slot z f = false).
      { intros f Ef. apply (Bits (f / 16)); auto. eapply word_zero_get; eauto. apply (wi_sb _ _ _ _ _ H). }
      rewrite fire_none in E1.
      2:{ intros g Hg. apply NS. destruct (D256 g). lia. }
      injection E1 as <-. apply Step; auto.
    + destruct (sum_ok c cb i 16 s z (vov s (base_idx s) i) none z1) as (s2 & Q2 & E2 & H2 & HQ2 & NS2);
        [lia|exact H|exact Hr|lia|exact Ht| | | | | | |].
      * apply (wi_sb _ _ _ _ _ H).
      * intros w [].
      * intros f Ef Lf. destruct (f_div_mod (f / 16)). rewrite Ef in *. lia.
      * intros t Lt B. split; auto. replace (i * 16 + (16 - 16) + t) with (i * 16 + t) by lia.
        rewrite <- get_at in B by auto. apply (wi_sum1 _ _ _ _ _ H) in B; auto; [tauto|]. rewrite div_eq by auto. lia.
      * intros t Lt B f Ef. apply (Bits (i * 16 + t)); [now apply div_eq| |rewrite Ef; lia]. now rewrite get_at.
      * replace ((i * 16 + (16 - 16)) * 16) with (i * 256) by lia. exact E1.
      * replace (i * 16 + (16 - 16)) with (i * 16) in E2 by lia. rewrite E2. cbn [bind].
        rewrite wr2_ok; [|rewrite (wi_base _ _ _ _ _ H2); apply mod128|lia]. cbn [bind].
        apply Step; auto. apply (zero_sum c Q2); auto. lia.
Qed.

Lemma next_ok c s z : WI c none none s z -> (forall f, is_slot z f = false) ->
  WI c none none (set_base s ((base_idx s + 1) mod 128) (base_time s + res c)%Z) (next_slot c z).
Proof.
  intros [VB SB BI S1 S2 TI PE OW BA TM NW LG] NS.
  constructor; auto; cbn [set_base next_slot vec vov tidx owned base_idx base_time now wlog pend own slot stime snow slog].
  - intros r f Hr Hf. rewrite BI by auto. unfold none. tauto.
  - intros r w Hr Hw G. destruct (S1 r w Hr Hw G) as [A [B|[_ []]]]; auto.
  - intros f n E. destruct (PE f n E) as (A & B & C). repeat split; auto; [|lia].
    destruct (Nat.eq_dec n (slot z)) as [->|]; [|lia]. apply is_slot_iff in E. rewrite NS in E. discriminate.
  - rewrite BA. rewrite Nat.add_mod_idemp_l by lia. f_equal. lia.
  - now rewrite TM.
Qed.

Lemma handle_ok c cb : forall fuel s z z', WI c none none s z -> (res c > 0)%Z ->
  spec_tick fuel c cb z = Some z' ->
  exists s', handle_timeout fuel c cb s = Ok s' /\ WI c none none s' z'.
Proof.
  induction fuel as [|fuel IH]; intros s z z' H Hr; cbn [handle_timeout spec_tick];
    rewrite (wi_time _ _ _ _ _ H), (wi_now _ _ _ _ _ H);
    replace (stime z <=? snow z - res c)%Z with (stime z + res c <=? snow z)%Z by (destruct (Z.leb_spec (stime z + res c) (snow z)), (Z.leb_spec (stime z) (snow z - res c)); auto; lia).
  - destruct (stime z + res c <=? snow z)%Z; [discriminate|]. intros [= <-]. eauto.
  - destruct (Z.leb_spec (stime z + res c) (snow z)) as [L|L]; [|intros [= <-]; eauto].
    destruct (spec_fire (maxfd c) c cb 0 z) as [z1|] eqn:E1; [|discriminate]. intros E2.
    assert (Ho : forall f m, pend z f = Some m -> own z f = true) by (intros f m X; exact (proj1 (proj2 (wi_pend _ _ _ _ _ H f m X)))).
    destruct (fire_sframe _ _ _ _ _ _ Hr L Ho E1) as [(SF1 & SF2 & SF3 & SF4) _].
    assert (E3 : spec_fire (vec_of_vec_size (maxfd c) * 256) c cb (0 * 256) z = Some z1).
    { pose proof (vov_size_16 (maxfd c)). pose proof (vec_size_16 (maxfd c)).
      replace (vec_of_vec_size (maxfd c) * 256) with (maxfd c + (vec_of_vec_size (maxfd c) * 256 - maxfd c)) by lia.
      rewrite fire_app. cbn [Nat.mul]. rewrite E1. apply fire_none. intros g Hg. destruct (is_slot z1 g) eqn:X; auto.
      apply SF4 in X. apply is_slot_iff in X. apply (wi_pend _ _ _ _ _ H) in X. lia. }
    destruct (slot_ok c cb (vec_of_vec_size (maxfd c)) 0 s z z1) as (s1 & -> & H1 & NS); auto.
    { intros f Hf. lia. }
    cbn [bind]. apply (IH _ (next_slot c z1)); auto. now apply next_ok.
Qed.

Lemma wheel_refines fuel c l : forall s z z', WI c none none s z -> (res c > 0)%Z ->
  spec_ops fuel c z l = Some z' -> exists s', do_ops fuel c s l = Ok s' /\ WI c none none s' z'.
Proof.
  induction l as [|o l IH]; intros s z z' H Hr; cbn [spec_ops do_ops].
  - intros [= <-]. eauto.
  - destruct (spec_op fuel c z o) as [z1|] eqn:E; [|discriminate]. intros E2.
    assert (X : exists s1, do_op fuel c s o = Ok s1 /\ WI c none none s1 z1).
    { destruct o as [a|t cb]; cbn [spec_op do_op] in *.
      - destruct (act_ok c none none None s z a z1 H Hr) as (s1 & A & B & _); auto; [intros d []|]. eauto.
      - eapply handle_ok; eauto. destruct H as [VB SB BI S1 S2 TI PE OW BA TM NW LG]. constructor; auto. }
    destruct X as (s1 & -> & H1). cbn [bind]. eauto.
Qed.

Lemma wheel_init_ok c ti t0 n0 : WI c none none (wheel_init ti t0 n0) (wspec0 t0 n0).
Proof.
  constructor; cbn; auto; try (intros r j; apply bounded16_0); try discriminate.
  - intros r f _ _. unfold get, bit. rewrite Z.testbit_0_l. split; [discriminate|]. intros [(n & X & _)|[_ []]]. discriminate.
  - intros r w _ _. unfold get, bit. rewrite Z.testbit_0_l. discriminate.
Qed.

(* ================= when a timeout is reported ================= *)
Definition act_fd (a : wact) : nat := match a with WSet f _ | WAdd f _ | WDel f => f end.
Definition cb_avoids (f : nat) (cb : list nat -> nat -> list wact) : Prop := forall l k, Forall (fun a => act_fd a <> f) (cb l k).
Definition op_avoids (f : nat) (o : wop) : Prop := match o with WAct a => act_fd a <> f | WTick _ cb => cb_avoids f cb end.
Definition op_tick (P : Z -> Prop) (o : wop) : Prop := match o with WAct _ => True | WTick t _ => P t end.
(* how often the timeout callback of f ran *)
Definition fires (f : nat) (l : list nat) : nat := count_occ Nat.eq_dec l f.
(* the clock readings of the loop iterations never decrease *)
Fixpoint clock_ok (n0 : Z) (l : list wop) : Prop :=
  match l with
  | [] => True
  | WAct _ :: r => clock_ok n0 r
  | WTick t _ :: r => (n0 <= t)%Z /\ clock_ok t r
  end.

Lemma act_avoids c cur z a z' f : spec_act c cur z a = Some z' -> act_fd a <> f ->
  pend z' f = pend z f /\ own z' f = own z f /\ slog z' = slog z /\ slot z' = slot z /\ stime z' = stime z /\ snow z' = snow z.
Proof.
  assert (Set_ : forall z0 g secs, g <> f -> let z1 := spec_set c z0 g secs in
    pend z1 f = pend z0 f /\ own z1 f = own z0 f /\ slog z1 = slog z0 /\ slot z1 = slot z0 /\ stime z1 = stime z0 /\ snow z1 = snow z0).
  { intros z0 g secs N. unfold spec_set. destruct (own z0 g); cbn; auto 10. rewrite upd_other by auto. auto 10. }
  intros E N. destruct a as [g secs|g secs|g]; cbn [spec_act act_fd] in *.
  - destruct (_ && _); [|discriminate]. injection E as <-. now apply Set_.
  - destruct (_ && _); [|discriminate]. injection E as <-.
    destruct (Set_ (with_own z (upd (own z) g true)) g secs N) as (A & B & C). split; auto. split; auto.
    rewrite B. cbn. now rewrite upd_other by auto.
  - destruct (_ && _); [|discriminate]. destruct (own z g); injection E as <-; auto 10.
    cbn. rewrite !upd_other by auto. auto 10.
Qed.
Lemma acts_avoids c cur f l : forall z z', spec_acts c cur z l = Some z' -> Forall (fun a => act_fd a <> f) l ->
  pend z' f = pend z f /\ own z' f = own z f /\ slog z' = slog z /\ slot z' = slot z /\ stime z' = stime z /\ snow z' = snow z.
Proof.
  induction l as [|a l IH]; intros z z'; cbn [spec_acts].
  - intros [= <-]. auto 10.
  - destruct (spec_act c cur z a) as [z1|] eqn:E; [|discriminate]. intros E2 H. inversion H as [|? ? Ha Hl]; subst.
    destruct (act_avoids _ _ _ _ _ _ E Ha) as (A1 & A2 & A3 & A4 & A5 & A6).
    destruct (IH _ _ E2 Hl) as (B1 & B2 & B3 & B4 & B5 & B6). repeat split; congruence.
Qed.
(* callbacks of others may do anything: only the clock and the slot are fixed *)
Lemma act_clock c cur z a z' : spec_act c cur z a = Some z' -> slot z' = slot z /\ stime z' = stime z /\ snow z' = snow z.
Proof. intros E. destruct (act_avoids c cur z a z' (S (act_fd a)) E ltac:(lia)) as (_ & _ & _ & H). auto. Qed.

Lemma fires_snoc f l k : fires f (l ++ [k]) = fires f l + if Nat.eqb k f then 1 else 0.
Proof.
  unfold fires. rewrite count_occ_app. cbn [count_occ]. destruct (Nat.eq_dec k f) as [->|N].
  - now rewrite Nat.eqb_refl.
  - apply Nat.eqb_neq in N. rewrite N. reflexivity.
Qed.

Lemma fire_avoids c cb f : cb_avoids f cb -> forall n a z z', spec_fire n c cb a z = Some z' ->
  own z' f = own z f /\ slot z' = slot z /\ stime z' = stime z /\ snow z' = snow z /\
  if is_slot z f && ((a <=? f) && (f <? a + n)) then pend z' f = None /\ fires f (slog z') = S (fires f (slog z))
  else pend z' f = pend z f /\ fires f (slog z') = fires f (slog z).
Proof.
  intros Hcb. induction n as [|n IH]; intros a z z'; cbn [spec_fire].
  - intros [= <-]. replace ((a <=? f) && (f <? a + 0)) with false; [rewrite andb_false_r; auto 10|].
    destruct (Nat.leb_spec a f), (Nat.ltb_spec f (a + 0)); auto; lia.
  - destruct (is_slot z a) eqn:Ea.
    + match goal with |- context [spec_acts ?a0 ?b ?d ?e] => change (spec_acts a0 b d e) with (spec_acts c (Some a) (fired1 z a) (cb (slog z) a)) end.
      destruct (spec_acts _ _ _ _) as [z1|] eqn:E; [|discriminate]. intros E2.
      destruct (acts_avoids _ _ f _ _ _ E (Hcb _ _)) as (A1 & A2 & A3 & A4 & A5 & A6).
      cbn [fired1 pend own slog slot stime snow] in *.
      destruct (IH _ _ _ E2) as (B1 & B2 & B3 & B4 & B5). rewrite A3, fires_snoc in B5.
      repeat (split; [congruence|]). destruct (Nat.eqb_spec a f) as [->|N].
      * rewrite Ea. replace ((f <=? f) && (f <? f + S n)) with true by (destruct (Nat.leb_spec f f), (Nat.ltb_spec f (f + S n)); auto; lia).
        replace ((S f <=? f) && (f <? S f + n)) with false in B5 by (destruct (Nat.leb_spec (S f) f); auto; lia).
        rewrite andb_false_r in B5. cbn [andb]. rewrite A1, upd_same in B5. destruct B5. split; auto. lia.
      * assert (S1 : is_slot z1 f = is_slot z f) by (unfold is_slot; rewrite A1, A4, upd_other; auto).
        rewrite S1 in B5. rewrite A1, upd_other, Nat.add_0_r in B5 by auto.
        replace ((a <=? f) && (f <? a + S n)) with ((S a <=? f) && (f <? S a + n)); auto.
        destruct (Nat.leb_spec (S a) f), (Nat.leb_spec a f), (Nat.ltb_spec f (S a + n)), (Nat.ltb_spec f (a + S n)); auto; lia.
    + intros E2. destruct (IH _ _ _ E2) as (B1 & B2 & B3 & B4 & B5). repeat (split; auto).
      destruct (Nat.eq_dec a f) as [->|N].
      * rewrite Ea in *. cbn [andb] in *. auto.
      * replace ((a <=? f) && (f <? a + S n)) with ((S a <=? f) && (f <? S a + n)); auto.
        destruct (Nat.leb_spec (S a) f), (Nat.leb_spec a f), (Nat.ltb_spec f (S a + n)), (Nat.ltb_spec f (a + S n)); auto; lia.
Qed.

(* the end of slot n *)
Definition slot_end (c : cfg) (z : wspec) (n : nat) : Z := (stime z + (Z.of_nat n - Z.of_nat (slot z) + 1) * res c)%Z.

Lemma fire_clock c cb : forall n a z z', spec_fire n c cb a z = Some z' -> slot z' = slot z /\ stime z' = stime z /\ snow z' = snow z.
Proof.
  assert (AC : forall l cur z z', spec_acts c cur z l = Some z' -> slot z' = slot z /\ stime z' = stime z /\ snow z' = snow z).
  { induction l as [|a l IH]; intros cur z z'; cbn [spec_acts]; [intros [= <-]; auto|].
    destruct (spec_act c cur z a) as [z1|] eqn:E; [|discriminate]. intros E2.
    destruct (act_clock _ _ _ _ _ E) as (A & B & C). destruct (IH _ _ _ E2) as (A' & B' & C'). repeat split; congruence. }
  induction n as [|n IH]; intros a z z'; cbn [spec_fire]; [intros [= <-]; auto|].
  destruct (is_slot z a); [|apply IH].
  match goal with |- context [spec_acts ?a0 ?b ?d ?e] => change (spec_acts a0 b d e) with (spec_acts c (Some a) (fired1 z a) (cb (slog z) a)) end.
  destruct (spec_acts _ _ _ _) as [z1|] eqn:E; [|discriminate]. intros E2.
  destruct (AC _ _ _ _ E) as (A & B & C). destruct (IH _ _ _ E2) as (A' & B' & C'). cbn [fired1 slot stime snow] in *. repeat split; congruence.
Qed.

Lemma tick_clock c cb : forall fuel z z', (res c > 0)%Z -> spec_tick fuel c cb z = Some z' ->
  snow z' = snow z /\ (snow z < stime z' + res c)%Z /\ (stime z' = stime z + (Z.of_nat (slot z') - Z.of_nat (slot z)) * res c)%Z /\
  slot z <= slot z' /\ (stime z <= snow z -> stime z' <= snow z)%Z.
Proof.
  induction fuel as [|k IH]; intros z z' Hr; cbn [spec_tick]; destruct (Z.leb_spec (stime z + res c) (snow z)) as [L|L];
    try discriminate; try (intros [= <-]; repeat split; auto; lia).
  destruct (spec_fire (maxfd c) c cb 0 z) as [z1|] eqn:E; [|discriminate]. intros E2.
  destruct (fire_clock _ _ _ _ _ _ E) as (A1 & A2 & A3).
  destruct (IH _ _ Hr E2) as (B1 & B2 & B3 & B4 & B5). cbn [next_slot slot stime snow] in *.
  rewrite A1, A2, A3 in *. repeat split; try lia. 
Qed.

Lemma tick_avoids c cb f : cb_avoids f cb -> (res c > 0)%Z -> f < maxfd c -> forall fuel z z', spec_tick fuel c cb z = Some z' ->
  (forall n, pend z f = Some n -> slot z <= n) ->
  own z' f = own z f /\
  match pend z f with
  | Some n => if (slot_end c z n <=? snow z)%Z then pend z' f = None /\ fires f (slog z') = S (fires f (slog z))
              else pend z' f = Some n /\ slot z' <= n /\ fires f (slog z') = fires f (slog z)
  | None => pend z' f = None /\ fires f (slog z') = fires f (slog z)
  end.
Proof.
  intros Hcb Hr Hf. induction fuel as [|k IH]; intros z z'; cbn [spec_tick]; destruct (Z.leb_spec (stime z + res c) (snow z)) as [L|L];
    try discriminate.
  - intros [= <-] Hn. split; auto. destruct (pend z f) as [n|] eqn:Ep; auto. specialize (Hn n eq_refl).
    destruct (Z.leb_spec (slot_end c z n) (snow z)) as [X|X]; auto. unfold slot_end in X. nia.
  - destruct (spec_fire (maxfd c) c cb 0 z) as [z1|] eqn:E; [|discriminate]. intros E2 Hn.
    destruct (fire_avoids c cb f Hcb _ _ _ _ E) as (A1 & A2 & A3 & A4 & A5).
    replace ((0 <=? f) && (f <? 0 + maxfd c)) with true in A5
      by (symmetry; apply andb_true_iff; split; [now apply Nat.leb_le; lia|apply Nat.ltb_lt; lia]).
    rewrite andb_true_r in A5.
    assert (PH : forall n, pend (next_slot c z1) f = Some n -> slot (next_slot c z1) <= n).
    { intros n. cbn [next_slot pend slot]. rewrite A2. destruct (is_slot z f) eqn:Es.
      - destruct A5 as [-> _]. discriminate.
      - destruct A5 as [-> _]. intros Ep. pose proof (Hn n Ep).
        destruct (Nat.eq_dec n (slot z)) as [->|]; [|lia]. apply is_slot_iff in Ep. congruence. }
    destruct (IH _ _ E2 PH) as [B1 B2]. cbn [next_slot pend own slog snow] in B1, B2. split; [congruence|].
    destruct (is_slot z f) eqn:Es.
    + destruct A5 as [A5 A6]. rewrite A5 in B2. pose proof (proj1 (is_slot_iff _ _) Es) as Ep. rewrite Ep.
      replace (slot_end c z (slot z)) with (stime z + res c)%Z by (unfold slot_end; nia).
      destruct (Z.leb_spec (stime z + res c) (snow z)); [|lia]. rewrite <- A6. exact B2.
    + destruct A5 as [A5 A6]. rewrite A5 in B2. rewrite A6 in B2. destruct (pend z f) as [n|] eqn:Ep; [|exact B2].
      replace (slot_end c (next_slot c z1) n) with (slot_end c z n) in B2
        by (unfold slot_end; cbn [next_slot slot stime]; rewrite A2, A3; nia).
      rewrite A4 in B2. exact B2.
  - intros [= <-] Hn. split; auto. destruct (pend z f) as [n|] eqn:Ep; auto. specialize (Hn n eq_refl).
    destruct (Z.leb_spec (slot_end c z n) (snow z)) as [X|X]; auto. unfold slot_end in X. nia.
Qed.

Lemma slot_end_same c z z' n : stime z' = (stime z + (Z.of_nat (slot z') - Z.of_nat (slot z)) * res c)%Z -> slot_end c z' n = slot_end c z n.
Proof. unfold slot_end. intros ->. ring. Qed.

(* operations that do not name f *)
Lemma op_avoids_ok fuel c f o z z' : (res c > 0)%Z -> f < maxfd c -> op_avoids f o -> spec_op fuel c z o = Some z' ->
  (forall n, pend z f = Some n -> slot z <= n) ->
  own z' f = own z f /\ (forall n, slot_end c z' n = slot_end c z n) /\
  match pend z f with
  | Some n => (op_tick (fun t => (t < slot_end c z n)%Z) o -> pend z' f = Some n /\ slot z' <= n /\ fires f (slog z') = fires f (slog z)) /\
              (forall t cb, o = WTick t cb -> (slot_end c z n <= t)%Z -> pend z' f = None /\ fires f (slog z') = S (fires f (slog z)))
  | None => pend z' f = None /\ fires f (slog z') = fires f (slog z)
  end.
Proof.
  intros Hr Hf Ho. destruct o as [a|t cb]; cbn [spec_op op_avoids] in *; intros E Hn.
  - destruct (act_avoids _ _ _ _ _ _ E Ho) as (A1 & A2 & A3 & A4 & A5 & A6). split; auto. split.
    { intros n. apply slot_end_same. rewrite A5, A4. ring. }
    rewrite A1, A3. destruct (pend z f) as [n|] eqn:Ep; auto. split; [|discriminate]. rewrite A4. auto.
  - destruct (tick_clock _ _ _ _ _ Hr E) as (C1 & C2 & C3 & C4 & C5). cbn [slot stime snow] in *.
    destruct (tick_avoids c cb f Ho Hr Hf _ _ _ E Hn) as [A B]. cbn [pend own slog slot snow] in *. split; auto. split.
    { intros n. now apply slot_end_same. }
    destruct (pend z f) as [n|] eqn:Ep; auto.
    match goal with B : context [slot_end c ?q n] |- _ => replace (slot_end c q n) with (slot_end c z n) in B by reflexivity end.
    cbn [op_tick]. split.
    + intros L. destruct (Z.leb_spec (slot_end c z n) t); [lia|]. auto.
    + intros t' cb' [= <- <-] L. destruct (Z.leb_spec (slot_end c z n) t); [|lia]. auto.
Qed.

Lemma spec_app fuel c a : forall b z z', spec_ops fuel c z (a ++ b) = Some z' ->
  exists z1, spec_ops fuel c z a = Some z1 /\ spec_ops fuel c z1 b = Some z'.
Proof.
  induction a as [|o a IH]; intros b z z'; cbn [app spec_ops]; [eauto|].
  destruct (spec_op fuel c z o); [|discriminate]. auto.
Qed.
Lemma do_ops_app fuel c a b : forall s s1, do_ops fuel c s a = Ok s1 -> do_ops fuel c s (a ++ b) = do_ops fuel c s1 b.
Proof.
  induction a as [|o a IH]; intros s s1; cbn [app do_ops]; [intros [= <-]; auto|].
  destruct (do_op fuel c s o); cbn [bind]; try discriminate. auto.
Qed.

Lemma quiet fuel c f l : forall z z', (res c > 0)%Z -> f < maxfd c -> Forall (op_avoids f) l -> spec_ops fuel c z l = Some z' ->
  pend z f = None -> pend z' f = None /\ fires f (slog z') = fires f (slog z).
Proof.
  induction l as [|o l IH]; intros z z' Hr Hf Hl; cbn [spec_ops]; [intros [= <-]; auto|].
  destruct (spec_op fuel c z o) as [z1|] eqn:E; [|discriminate]. intros E2 Ep. inversion Hl as [|? ? H1 H2]; subst.
  destruct (op_avoids_ok _ _ _ _ _ _ Hr Hf H1 E) as (A & B & C); [rewrite Ep; discriminate|]. rewrite Ep in C. destruct C as [C1 C2].
  destruct (IH _ _ Hr Hf H2 E2 C1) as [D1 D2]. split; auto. congruence.
Qed.
Lemma waiting fuel c f l : forall z z' n, (res c > 0)%Z -> f < maxfd c -> Forall (op_avoids f) l -> spec_ops fuel c z l = Some z' ->
  pend z f = Some n -> slot z <= n -> Forall (op_tick (fun t => (t < slot_end c z n)%Z)) l ->
  pend z' f = Some n /\ slot z' <= n /\ fires f (slog z') = fires f (slog z) /\ slot_end c z' n = slot_end c z n.
Proof.
  induction l as [|o l IH]; intros z z' n Hr Hf Hl; cbn [spec_ops]; [intros [= <-]; auto|].
  destruct (spec_op fuel c z o) as [z1|] eqn:E; [|discriminate]. intros E2 Ep Hs Ht.
  inversion Hl as [|? ? H1 H2]; inversion Ht as [|? ? H3 H4]; subst.
  destruct (op_avoids_ok _ _ _ _ _ _ Hr Hf H1 E) as (A & B & C); [intros m X; congruence|]. rewrite Ep in C. destruct C as [C _].
  destruct (C H3) as (C1 & C2 & C3).
  destruct (IH z1 z' n Hr Hf H2 E2 C1 C2) as (D1 & D2 & D3 & D4).
  { eapply Forall_impl; [|exact H4]. intros q. rewrite B. auto. }
  repeat split; auto; congruence.
Qed.

(* the base of the wheel follows the clock *)
Lemma ops_clock fuel c l : forall z z' n0, (res c > 0)%Z -> spec_ops fuel c z l = Some z' -> snow z = n0 -> clock_ok n0 l ->
  (stime z <= snow z < stime z + res c)%Z -> (stime z' <= snow z' < stime z' + res c)%Z.
Proof.
  induction l as [|o l IH]; intros z z' n0 Hr; cbn [spec_ops clock_ok]; [intros [= <-]; auto|].
  destruct (spec_op fuel c z o) as [z1|] eqn:E; [|discriminate]. intros E2 En Hc Hb. destruct o as [a|t cb]; cbn [spec_op] in E.
  - destruct (act_clock _ _ _ _ _ E) as (A1 & A2 & A3). apply (IH z1 z' n0); auto; [congruence|]. rewrite A2, A3. auto.
  - destruct Hc as [Hc1 Hc2]. destruct (tick_clock _ _ _ _ _ Hr E) as (C1 & C2 & C3 & C4 & C5). cbn [slot stime snow] in *.
    apply (IH z1 z' t); auto. rewrite C1. split; auto. apply C5. lia.
Qed.

Lemma quot_slot r b x : (r > 0)%Z -> (b <= x)%Z -> (x - b < 128 * r)%Z ->
  let d := slot_delta r x 0 b in (Z.of_nat d = (x - b) / r)%Z.
Proof.
  intros Hr Hb Hx. unfold slot_delta. rewrite Z.add_0_r. rewrite Z.quot_div_nonneg by lia.
  assert (0 <= (x - b) / r)%Z by (apply Z.div_pos; lia).
  assert ((x - b) / r < 128)%Z by (apply Z.div_lt_upper_bound; lia).
  destruct (Z.ltb_spec ((x - b) / r) 0); [lia|]. destruct (Z.leb_spec 128 ((x - b) / r)); [lia|]. cbn [orb]. lia.
Qed.

(* the main theorem: a timeout of secs seconds set while the clock reads now s1 is reported exactly once, by the
   first loop iteration whose clock reaches E *)
Definition reported_at (c : cfg) (nw secs E : Z) : Prop :=
  (secs <= 127 * res c -> nw + secs < E <= nw + secs + res c)%Z /\
  (secs <= 128 * res c -> nw + secs - res c < E)%Z /\
  (128 * res c <= secs -> nw + 127 * res c < E <= nw + 128 * res c)%Z.

Lemma fires_once fuel c ti n0 pre z1 f secs : (res c > 0)%Z -> (0 < secs)%Z -> f < maxfd c ->
  spec_ops fuel c (wspec0 n0 n0) pre = Some z1 -> own z1 f = true -> clock_ok n0 pre ->
  exists s1 E, do_ops fuel c (wheel_init ti n0 n0) pre = Ok s1 /\ reported_at c (now s1) secs E /\
  forall during t cb after z', spec_ops fuel c z1 (WAct (WSet f secs) :: during ++ WTick t cb :: after) = Some z' ->
    Forall (op_avoids f) during -> cb_avoids f cb -> Forall (op_avoids f) after ->
    Forall (op_tick (fun u => (u < E)%Z)) during -> (E <= t)%Z ->
    exists s2 s3 s4, do_ops fuel c s1 (WAct (WSet f secs) :: during) = Ok s2 /\ do_op fuel c s2 (WTick t cb) = Ok s3 /\
      do_ops fuel c s3 after = Ok s4 /\
      fires f (wlog s2) = fires f (wlog s1) /\ fires f (wlog s3) = S (fires f (wlog s1)) /\ fires f (wlog s4) = S (fires f (wlog s1)).
Proof.
  intros Hr Hs Hf Ez1 Ho Hc.
  destruct (wheel_refines fuel c pre _ _ _ (wheel_init_ok c ti n0 n0) Hr Ez1) as (s1 & Es1 & H1).
  assert (Hb : (stime z1 <= snow z1 < stime z1 + res c)%Z).
  { apply (ops_clock fuel c pre (wspec0 n0 n0) z1 n0 Hr Ez1); [reflexivity|exact Hc|cbn; lia]. }
  set (d := slot_delta (res c) (snow z1) secs (stime z1)).
  assert (Ed : (snow z1 + secs - stime z1 < 128 * res c -> Z.of_nat d = (snow z1 + secs - stime z1) / res c)%Z).
  { intros L. unfold d, slot_delta. pose proof (quot_slot (res c) (stime z1) (snow z1 + secs)) as Q. unfold slot_delta in Q.
    rewrite Z.add_0_r in Q. apply Q; lia. }
  assert (Ed2 : (128 * res c <= snow z1 + secs - stime z1)%Z -> d = 127).
  { intros L. unfold d, slot_delta. rewrite Z.quot_div_nonneg by lia.
    assert (128 <= (snow z1 + secs - stime z1) / res c)%Z by (apply Z.div_le_lower_bound; lia).
    destruct (Z.leb_spec 128 ((snow z1 + secs - stime z1) / res c)); [|lia]. now rewrite orb_true_r. }
  exists s1, (stime z1 + (Z.of_nat d + 1) * res c)%Z. split; auto. split.
  { rewrite (wi_now _ _ _ _ _ H1).
    destruct (Z.lt_ge_cases (snow z1 + secs - stime z1) (128 * res c)) as [L|L].
    - rewrite (Ed L).
      pose proof (Z.div_mod (snow z1 + secs - stime z1) (res c) ltac:(lia)).
      pose proof (Z.mod_pos_bound (snow z1 + secs - stime z1) (res c) ltac:(lia)).
      unfold reported_at. split; [nia|]. split; [nia|]. intros; lia.
    - rewrite (Ed2 L). unfold reported_at. lia. }
  intros during t cb after z' E A1 A2 A3 T1 T2.
  change (WAct (WSet f secs) :: during ++ WTick t cb :: after) with ((WAct (WSet f secs) :: during) ++ WTick t cb :: after) in E.
  destruct (spec_app _ _ _ _ _ _ E) as (z2 & E2 & E3). cbn [spec_ops] in E3.
  destruct (spec_op fuel c z2 (WTick t cb)) as [z3|] eqn:E4; [|discriminate].
  destruct (wheel_refines _ _ _ _ _ _ H1 Hr E2) as (s2 & Es2 & H2).
  destruct (wheel_refines fuel c [WTick t cb] s2 z2 z3 H2 Hr) as (s3 & Es3 & H3); [cbn [spec_ops]; now rewrite E4|].
  destruct (wheel_refines _ _ _ _ _ _ H3 Hr E3) as (s4 & Es4 & H4).
  exists s2, s3, s4. split; [exact Es2|]. split.
  { cbn [do_ops] in Es3. destruct (do_op fuel c s2 (WTick t cb)); cbn [bind] in Es3; auto; discriminate. }
  split; [exact Es4|].
  rewrite (wi_log _ _ _ _ _ H2), (wi_log _ _ _ _ _ H3), (wi_log _ _ _ _ _ H4), (wi_log _ _ _ _ _ H1).
  (* set *)
  cbn [spec_ops] in E2. destruct (spec_op fuel c z1 (WAct (WSet f secs))) as [za|] eqn:Ea; [|discriminate].
  cbn [spec_op spec_act] in Ea. destruct (_ && _) in Ea; [|discriminate]. injection Ea as <-. unfold spec_set in E2. rewrite Ho in E2.
  destruct (Z.eqb_spec secs 0) as [|_]; [lia|]. fold d in E2. set (n := slot z1 + d) in E2.
  set (za := with_pend z1 _) in E2.
  assert (Sa : slot_end c za n = (stime z1 + (Z.of_nat d + 1) * res c)%Z).
  { unfold slot_end, n, za, with_pend. cbn [stime slot]. f_equal. f_equal. lia. }
  destruct (waiting fuel c f during za z2 n Hr Hf A1 E2) as (W1 & W2 & W3 & W4).
  { cbn. apply upd_same. } { cbn. unfold n. lia. } { rewrite Sa. exact T1. }
  destruct (op_avoids_ok fuel c f (WTick t cb) z2 z3 Hr Hf A2 E4) as (_ & _ & O); [intros m X; congruence|].
  rewrite W1 in O. destruct O as [_ O]. destruct (O t cb eq_refl) as [O1 O2]; [rewrite W4, Sa; exact T2|].
  destruct (quiet fuel c f after z3 z' Hr Hf A3 E3 O1) as [_ Q].
  change (slog za) with (slog z1) in W3. lia.
Qed.

(* after clearing or unregistering, nothing is reported *)
Lemma cleared_quiet fuel c ti n0 pre z1 a f l z' : (res c > 0)%Z -> f < maxfd c -> a = WSet f 0 \/ a = WDel f ->
  spec_ops fuel c (wspec0 n0 n0) pre = Some z1 -> spec_ops fuel c z1 (WAct a :: l) = Some z' -> Forall (op_avoids f) l ->
  exists s1 s2, do_ops fuel c (wheel_init ti n0 n0) pre = Ok s1 /\ do_ops fuel c s1 (WAct a :: l) = Ok s2 /\
    fires f (wlog s2) = fires f (wlog s1).
Proof.
  intros Hr Hf Ha E1 E2 Hl.
  destruct (wheel_refines fuel c pre _ _ _ (wheel_init_ok c ti n0 n0) Hr E1) as (s1 & Es1 & H1).
  destruct (wheel_refines _ _ _ _ _ _ H1 Hr E2) as (s2 & Es2 & H2).
  exists s1, s2. split; auto. split; auto. rewrite (wi_log _ _ _ _ _ H1), (wi_log _ _ _ _ _ H2).
  cbn [spec_ops spec_op] in E2. destruct (spec_act c None z1 a) as [za|] eqn:Ea; [|discriminate].
  assert (X : pend za f = None /\ slog za = slog z1).
  { assert (U : own z1 f = false -> pend z1 f = None).
    { destruct (pend z1 f) as [n|] eqn:Ep; auto. apply (wi_pend _ _ _ _ _ H1) in Ep. destruct Ep as (_ & Ep & _). congruence. }
    destruct Ha as [-> | ->]; cbn [spec_act] in Ea; destruct (_ && _) in Ea; try discriminate.
    - injection Ea as <-. unfold spec_set. destruct (own z1 f); cbn; auto. rewrite upd_same. auto.
    - destruct (own z1 f); injection Ea as <-; cbn; auto. rewrite upd_same. auto. }
  destruct X as [X1 X2]. rewrite <- X2. now apply (quiet fuel c f l za z').
Qed.

(* ================= summary bits and table layout (observable part of the invariant) ================= *)
Lemma summary_exact fuel c ti t0 n0 l z : (res c > 0)%Z -> spec_ops fuel c (wspec0 t0 n0) l = Some z ->
  exists s, do_ops fuel c (wheel_init ti t0 n0) l = Ok s /\
    (forall r w, r < 128 -> w < vec_size (maxfd c) -> (get (vov s) r w = true <-> vec s r w <> 0%Z)) /\
    (forall r w, r < 128 -> w < vec_size (maxfd c) ->
       (vec s r w <> 0%Z <-> exists f, f < maxfd c /\ f / 16 = w /\ get (vec s) r f = true)) /\
    (forall r f, r < 128 -> f < maxfd c -> (get (vec s) r f = true <-> owned s f = true /\ tidx s f = r)) /\
    (forall f, f < maxfd c -> owned s f = true -> tidx s f < 128 \/ tidx s f = UNUSED).
Proof.
  intros Hr E. destruct (wheel_refines fuel c l _ _ _ (wheel_init_ok c ti t0 n0) Hr E) as (s & Es & H).
  exists s. split; auto. pose proof H as [VB SB BI S1 S2 TI PE OW BA TM NW LG].
  assert (Bits : forall r f, r < 128 -> f / 16 < vec_size (maxfd c) ->
    (get (vec s) r f = true <-> exists n, pend z f = Some n /\ n mod 128 = r)).
  { intros r f R F. rewrite BI by auto. unfold none. tauto. }
  split; [|split; [|split]].
  - intros r w R W. split; auto. intros G. destruct (S1 r w R (fd_sum _ _ W) G) as [_ [X|[_ []]]]. auto.
  - intros r w R W. rewrite word_nonzero_get by auto. split; [|intros (f & _ & F); eauto].
    intros (f & F & G). exists f. split; auto. rewrite Bits in G by (auto; now rewrite F). destruct G as (n & X & _). now apply PE in X.
  - intros r f R F. rewrite Bits by (auto; now apply fd_word). rewrite OW. split.
    + intros (n & X & M). destruct (PE f n X) as (_ & O & _). split; auto. rewrite TI, X; auto.
    + intros [O M]. rewrite TI in M by auto. destruct (pend z f) as [n|]; eauto. unfold UNUSED in M. lia.
  - intros f F O. rewrite OW in O. rewrite TI by auto. destruct (pend z f); auto. left. apply mod128.
Qed.

(* ================= programs without callback actions always run ================= *)
Definition nocb : list nat -> nat -> list wact := fun _ _ => [].
Lemma fire_nocb c : forall n a z, exists z', spec_fire n c nocb a z = Some z'.
Proof. induction n as [|n IH]; intros a z; cbn [spec_fire]; eauto. destruct (is_slot z a); cbn [nocb spec_acts]; apply IH. Qed.
Lemma tick_nocb c : (res c > 0)%Z -> forall fuel z, (snow z < stime z + (Z.of_nat fuel + 1) * res c)%Z -> exists z', spec_tick fuel c nocb z = Some z'.
Proof.
  intros Hr. induction fuel as [|k IH]; intros z H; cbn [spec_tick]; destruct (Z.leb_spec (stime z + res c) (snow z)); eauto; [nia|].
  destruct (fire_nocb c (maxfd c) 0 z) as [z1 E]. rewrite E. apply IH.
  destruct (fire_clock _ _ _ _ _ _ E) as (A1 & A2 & A3). cbn [next_slot snow stime]. rewrite A2, A3. nia.
Qed.

(* a timeout beyond the wheel's span fires early, whatever its length *)
Lemma long_early c ti n0 f secs : (res c > 0)%Z -> f < maxfd c -> (128 * res c < secs)%Z ->
  exists s, do_ops 200 c (wheel_init ti n0 n0) [WAct (WAdd f 0); WAct (WSet f secs); WTick (n0 + 128 * res c) nocb] = Ok s /\
    fires f (wlog s) = 1 /\ (n0 + 128 * res c < n0 + secs)%Z.
Proof.
  intros Hr Hf Hs.
  set (z1 := with_pend (with_own (wspec0 n0 n0) (upd (fun _ => false) f true)) (upd (fun _ => None) f None)).
  assert (E1 : spec_ops 200 c (wspec0 n0 n0) [WAct (WAdd f 0)] = Some z1).
  { cbn [spec_ops spec_op spec_act wspec0 own]. apply Nat.ltb_lt in Hf. rewrite Hf. cbn [andb negb Z.leb Z.compare].
    unfold spec_set. cbn [with_own own]. rewrite upd_same. reflexivity. }
  destruct (fires_once 200 c ti n0 [WAct (WAdd f 0)] z1 f secs Hr ltac:(lia) Hf E1) as (s1 & E & Es1 & (R1 & R2 & R3) & H).
  { cbn. apply upd_same. } { cbn. auto. }
  assert (N : now s1 = n0 /\ wlog s1 = []).
  { destruct (wheel_refines 200 c [WAct (WAdd f 0)] _ _ _ (wheel_init_ok c ti n0 n0) Hr E1) as (s1' & X & W).
    rewrite Es1 in X. injection X as <-. rewrite (wi_now _ _ _ _ _ W), (wi_log _ _ _ _ _ W). auto. }
  destruct N as [N L].
  set (za := with_pend z1 (upd (pend z1) f (Some (slot z1 + slot_delta (res c) (snow z1) secs (stime z1))))).
  assert (E2 : spec_act c None z1 (WSet f secs) = Some za).
  { cbn [spec_act forbidden]. rewrite (proj2 (Nat.ltb_lt f (maxfd c)) Hf), (proj2 (Z.leb_le 0 secs) ltac:(lia)). cbn [andb negb].
    unfold spec_set. replace (own z1 f) with true by (cbn; now rewrite upd_same).
    destruct (Z.eqb_spec secs 0); [lia|]. reflexivity. }
  destruct (tick_nocb c Hr 200 {| pend := pend za; own := own za; slot := slot za; stime := stime za; snow := n0 + 128 * res c; slog := slog za |}) as [z' E3].
  { cbn [snow stime za with_pend z1 with_own wspec0]. lia. }
  destruct (H [] (n0 + 128 * res c)%Z nocb [] z') as (s2 & s3 & s4 & A & B & C & F1 & F2 & F3); auto.
  { cbn [spec_ops spec_op app]. rewrite E2, E3. reflexivity. }
  { intros l k. constructor. }
  { rewrite N in R3. lia. }
  exists s3. split; [|split; [rewrite F2, L; reflexivity|lia]].
  cbn [do_ops] in Es1 |- *. destruct (do_op 200 c (wheel_init ti n0 n0) (WAct (WAdd f 0))) as [q| | |]; cbn [bind] in Es1 |- *; try discriminate.
  injection Es1 as ->. cbn [do_ops] in A. destruct (do_op 200 c s1 (WAct (WSet f secs))) as [q| | |]; cbn [bind] in A |- *; try discriminate.
  injection A as ->. rewrite B. reflexivity.
Qed.

(* ================= violations ================= *)
Definition run_log (fuel : nat) (c : cfg) (l : list wop) : option (list nat) :=
  match do_ops fuel c (wheel_init (fun _ => UNUSED) 0 0) l with Ok s => Some (wlog s) | _ => None end.
Definition cfg0 : cfg := {| maxfd := 32; res := 1%Z |}.
Definition clear5 : list nat -> nat -> list wact := fun _ k => if Nat.eqb k 3 then [WSet 5 0%Z] else [].
Definition rearm5 : list nat -> nat -> list wact := fun _ k => if Nat.eqb k 3 then [WSet 5 9%Z] else [].
Definition del5 : list nat -> nat -> list wact := fun _ k => if Nat.eqb k 3 then [WDel 5] else [].

(* the callback of 3 clears (re-arms, unregisters) the timeout of 5: 5 is reported all the same; after re-arming
   it is reported early and then a second time *)
Lemma clear_in_callback :
  run_log 10 cfg0 [WAct (WAdd 3 1); WAct (WAdd 5 1); WTick 2 clear5] = Some [3; 5] /\
  run_log 10 cfg0 [WAct (WAdd 3 1); WAct (WAdd 5 1); WTick 2 del5] = Some [3; 5] /\
  run_log 20 cfg0 [WAct (WAdd 3 1); WAct (WAdd 5 1); WTick 2 rearm5; WTick 12 nocb] = Some [3; 5; 5].
Proof. vm_compute. auto. Qed.
(* with descriptors in different groups of 16 the same program is fine *)
Lemma clear_other_group :
  run_log 10 cfg0 [WAct (WAdd 3 1); WAct (WAdd 25 1); WTick 2 (fun _ k => if Nat.eqb k 3 then [WSet 25 0%Z] else [])] = Some [3].
Proof. vm_compute. auto. Qed.

(* registering an already registered descriptor again loses track of its pending timeout *)
Lemma add_twice : run_log 20 cfg0 [WAct (WAdd 3 5); WAct (WAdd 3 0); WAct (WSet 3 0); WAct (WDel 3); WTick 9 nocb] = Some [3].
Proof. vm_compute. auto. Qed.

(* a loop created for a maximum timeout of 0 has slots of 0 seconds: setting any timeout divides by zero, and
   the loop never finishes handling timeouts *)
Lemma zero_resolution_value n : resolution n = 0%Z <-> n = 0.
Proof.
  unfold resolution, rnd_up. rewrite Nat.div_mul by lia. split.
  - intros H. destruct n; auto. exfalso. assert (1 <= (S n + 128 - 1) / 128) by (apply Nat.div_le_lower_bound; lia). lia.
  - intros ->. reflexivity.
Qed.
Lemma resolution_span n : (Z.of_nat n <= 128 * resolution n)%Z.
Proof. unfold resolution. destruct (rnd_up_ge n 128 ltac:(lia)) as [H1 H2].
  apply Nat.mod_divides in H2; [|lia]. destruct H2 as [q E]. rewrite E in *. rewrite (Nat.mul_comm 128 q), Nat.div_mul by lia. lia.
Qed.
Lemma zero_resolution c s f secs : res c = 0%Z -> f < maxfd c -> owned s f = true -> tidx s f = UNUSED -> secs <> 0%Z ->
  set_timeout c s f secs = UB.
Proof.
  intros Hr Hf Ho Ht Hs. unfold set_timeout, clear_timeout, arm_timeout. apply Nat.ltb_lt in Hf. rewrite Hf, Ho, Ht.
  change (UNUSED =? UNUSED) with true. cbn [bind]. apply Z.eqb_neq in Hs. now rewrite Hs, Hr.
Qed.
Lemma tick_not_done c : res c = 0%Z -> forall fuel z, (stime z <= snow z)%Z -> spec_tick fuel c nocb z = None.
Proof.
  intros Hr. induction fuel as [|k IH]; intros z H; cbn [spec_tick]; rewrite Hr; destruct (Z.leb_spec (stime z + 0) (snow z)); auto; try lia.
  destruct (fire_nocb c (maxfd c) 0 z) as [z1 E]. rewrite E. apply IH.
  destruct (fire_clock _ _ _ _ _ _ E) as (A1 & A2 & A3). cbn [next_slot snow stime]. rewrite A2, A3, Hr. lia.
Qed.
Lemma slot_loop_empty c cb : forall todo i s, i + todo = vec_of_vec_size (maxfd c) -> base_idx s < 128 -> (forall r j, vov s r j = 0%Z) ->
  slot_loop todo c cb i s = Ok s.
Proof.
  induction todo as [|n IH]; intros i s Hi Hb Hv; cbn [slot_loop]; auto.
  rewrite rd2_ok by lia. cbn [bind]. rewrite Hv. cbn [Z.eqb bind]. apply IH; auto. lia.
Qed.
Lemma zero_never_ends c cb : res c = 0%Z -> forall fuel s, base_idx s < 128 -> (forall r j, vov s r j = 0%Z) -> (base_time s <= now s)%Z ->
  handle_timeout fuel c cb s = Fuel.
Proof.
  intros Hr. induction fuel as [|k IH]; intros s Hb Hv Ht; cbn [handle_timeout]; rewrite Hr, Z.sub_0_r;
    destruct (Z.leb_spec (base_time s) (now s)); try lia; auto.
  rewrite slot_loop_empty by auto. cbn [bind]. apply IH; cbn [set_base base_idx vov base_time now]; auto; [|lia]. apply mod128.
Qed.

Lemma wheel_observable fuel c ti t0 n0 l z : (res c > 0)%Z ->
  spec_ops fuel c (wspec0 t0 n0) l = Some z ->
  exists s, do_ops fuel c (wheel_init ti t0 n0) l = Ok s /\ wlog s = slog z /\ (forall f, owned s f = own z f) /\
    now s = snow z /\ base_time s = stime z.
Proof.
  intros Hr E. destruct (wheel_refines fuel c l _ _ _ (wheel_init_ok c ti t0 n0) Hr E) as (s & Es & H).
  exists s. destruct H. auto 10.
Qed.
