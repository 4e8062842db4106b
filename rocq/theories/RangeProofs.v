(* Specifications and lemmas for ranges. *)
From Verif Require Import Base ArrayModel ArrayProofs RangeModel.

(* ---- Specification ---- *)
(* first, first + step, first + 2 step, ... ([k] numbers). *)
Definition count_up (first step : Z) (k : nat) : list Z :=
  map (fun j => (first + step * Z.of_nat j)%Z) (seq 0 k).

Lemma count_up_length f s k : length (count_up f s k) = k.
Proof. unfold count_up. now rewrite map_length, seq_length. Qed.

Lemma count_up_S f s k : count_up f s (S k) = count_up f s k ++ [(f + s * Z.of_nat k)%Z].
Proof. unfold count_up. rewrite seq_S, map_app. reflexivity. Qed.

Lemma count_up_cons f s k : count_up f s (S k) = f :: count_up (f + s) s k.
Proof.
  unfold count_up. cbn [seq map]. f_equal; [lia|]. rewrite <- seq_shift, map_map.
  apply map_ext. intros a. lia.
Qed.

Lemma int_in x : (- 2 ^ 31 <= x < 2 ^ 31)%Z -> int x = Ok x.
Proof.
  intros H. unfold int, int_ok.
  assert (E : ((- 2 ^ 31 <=? x) && (x <? 2 ^ 31))%Z = true) by lia. now rewrite E.
Qed.

Lemma append_keep (b : block Z) l v :
  holds b l -> b_type b <> T_TUPLE -> b_size b < cap b ->
  exists b', append b v = Ok b' /\ holds b' (l ++ [v]) /\ b_type b' = b_type b /\ cap b' = cap b.
Proof.
  intros H HT Hc. destruct (append_spec Z b l v H HT ltac:(lia)) as (b' & E & H' & T & _).
  exists b'. repeat split; auto; try apply H'.
  unfold append in E. destruct (b_type b) eqn:ET; try congruence;
  (destruct (Nat.leb_spec (cap b) (b_size b)) as [X|X]; [lia|];
   rewrite wr_ok in E by (unfold cap in Hc; lia); cbn [bind] in E; injection E as <-;
   unfold cap; cbn [b_cells]; now rewrite set_nth_length).
Qed.

Lemma append_here_keep m (b : block Z) l v :
  holds b l -> b_type b <> T_TUPLE -> b_size b < cap b ->
  exists b', append_here m b v = Ok b' /\ holds b' (l ++ [v]) /\ b_type b' = b_type b /\ cap b' = cap b.
Proof.
  intros H HT Hc. unfold append_here. destruct (Nat.leb_spec (cap b) (b_size b)); [lia|].
  apply append_keep; auto.
Qed.

Lemma fresh_grow_holds q n : holds (grow (fresh (A:=Z) q) n) [] /\ cap (grow (fresh (A:=Z) q) n) = n
  /\ b_type (grow (fresh (A:=Z) q) n) = T_ARRAY.
Proof.
  destruct (grow_holds Z (fresh q) [] n (fresh_holds Z q)) as [A B]; [cbn; lia|]. auto.
Qed.

Lemma range_loop_spec m n : forall b l i stop,
  holds b l -> b_type b <> T_TUPLE -> (stop - i <= Z.of_nat n)%Z ->
  (Z.of_nat (b_size b) + Z.max 0 (stop - i) <= Z.of_nat (cap b))%Z ->
  (- 2 ^ 31 <= i)%Z -> (stop < 2 ^ 31)%Z ->
  exists b', range_loop n m (Whole b) i stop = Ok (Whole b') /\
    holds b' (l ++ count_up i 1 (Z.to_nat (stop - i))) /\ b_type b' = b_type b /\ cap b' = cap b.
Proof.
  induction n as [|n IH]; intros b l i stop H HT Hn Hc Hi Hs; cbn [range_loop].
  - destruct (Z.ltb_spec i stop); [lia|]. exists b. replace (Z.to_nat (stop - i)) with 0 by lia.
    rewrite app_nil_r. auto.
  - destruct (Z.ltb_spec i stop).
    + destruct (append_here_keep m b l i H HT) as (b1 & E1 & H1 & T1 & C1); [lia|].
      cbn [append_ranged]. rewrite E1. cbn [bind]. rewrite int_in by lia. cbn [bind].
      assert (S1 : b_size b1 = S (b_size b)).
      { rewrite (proj1 H1), (proj1 H), app_length. simpl; lia. }
      destruct (IH b1 (l ++ [i]) (i + 1)%Z stop) as (b' & E & H' & T' & C'); auto; try lia; try congruence.
      exists b'. rewrite E, T', T1, C', C1. repeat split; auto.
      * rewrite (proj1 H'). f_equal.
        replace (Z.to_nat (stop - i)) with (S (Z.to_nat (stop - (i + 1)))) by lia.
        rewrite count_up_cons, <- app_assoc. reflexivity.
      * replace (Z.to_nat (stop - i)) with (S (Z.to_nat (stop - (i + 1)))) by lia.
        rewrite count_up_cons. destruct H' as [_ X]. rewrite <- app_assoc in X. exact X.
    + exists b. replace (Z.to_nat (stop - i)) with 0 by lia. rewrite app_nil_r. auto.
Qed.

Definition is_int (x : Z) : Prop := (- 2 ^ 31 <= x < 2 ^ 31)%Z.

Lemma range_spec m q start stop :
  is_int start -> is_int stop -> (start - 1 <= stop)%Z -> (stop - start + 1 < 2 ^ 31)%Z ->
  exists b, range m q start stop = Ok (Whole b) /\
    holds b (count_up start 1 (Z.to_nat (stop - start))) /\ b_type b = T_RANGE /\
    cap b = Z.to_nat (stop - start + 1).
Proof.
  unfold is_int. intros Ha Hb Hc Hd. unfold range. rewrite int_in by lia. cbn [bind].
  rewrite int_in by lia. cbn [bind]. unfold grow_int.
  destruct (Z.leb_spec 0 (stop - start + 1)); [|lia]. cbn [bind].
  destruct (fresh_grow_holds q (Z.to_nat (stop - start + 1))) as (H0 & C0 & T0).
  destruct (range_loop_spec m (S (Z.to_nat (stop - start))) _ [] start stop H0) as (b & E & Hh & T & C).
  1: rewrite T0; discriminate. 2: rewrite C0, (proj1 H0); cbn [length]. 1-4: lia.
  rewrite E. cbn [bind]. exists (mkb T_RANGE (b_size b) (b_cells b)). repeat split.
  - apply Hh.
  - apply Hh.
  - unfold cap in *. cbn [b_cells]. congruence.
Qed.

(* stop below start - 1: the block is cut to fewer bytes than its header. *)
Lemma range_backwards m q start stop :
  is_int start -> is_int stop -> (stop < start - 1)%Z -> (- 2 ^ 31 <= stop - start)%Z ->
  if (start - stop <=? 10)%Z
  then exists bytes claimed, range m q start stop = Ok (Cut bytes claimed) /\
       (0 < bytes < meta)%Z /\ (2 ^ 63 < claimed)%Z /\
       forall m' v, append_ranged m' (Cut bytes claimed) v = UB
  else range m q start stop = UB.
Proof.
  unfold is_int. intros Ha Hb Hc Hd.
  unfold range. rewrite int_in by lia. cbn [bind].
  rewrite int_in by lia. cbn [bind]. unfold grow_int.
  destruct (Z.leb_spec 0 (stop - start + 1)); [lia|].
  set (k := (stop - start + 1)%Z) in *.
  destruct (Z.leb_spec (start - stop) 10) as [K|K].
  - assert (Ew : wrapu 64 (k * 8 + meta) = (k * 8 + meta)%Z).
    { unfold wrapu. apply Z.mod_small. unfold meta in *. lia. }
    assert (Ec : wrapu 64 k = (k + 2 ^ 64)%Z).
    { unfold wrapu. replace k with (k + 2 ^ 64 + (-1) * 2 ^ 64)%Z at 1 by lia.
      rewrite Z.mod_add by lia. apply Z.mod_small. lia. }
    cbv zeta. rewrite Ew. unfold meta, capacity_end.
    assert (E : ((24 <=? k * 8 + 96) && (k * 8 + 96 <? 96))%Z = true) by lia. rewrite E. cbn [bind].
    assert (EL : forall n, range_loop n m (Cut (k * 8 + 96) (wrapu 64 k)) start stop = Ok (Cut (k * 8 + 96) (wrapu 64 k))).
    { intros [|n]; cbn [range_loop]; destruct (Z.ltb_spec start stop); auto; lia. }
    rewrite EL. cbn [bind set_range_type]. do 2 eexists. split; [reflexivity|].
    split; [lia|]. rewrite Ec. split; [lia|]. intros m' v. unfold append_ranged, meta.
    destruct (Z.leb_spec (96 + 8) (k * 8 + 96)); [lia|reflexivity].
  - cbv zeta.
    assert (E : ((capacity_end <=? wrapu 64 (k * 8 + meta)) && (wrapu 64 (k * 8 + meta) <? meta))%Z = false).
    { unfold capacity_end, meta, wrapu. destruct (Z.le_gt_cases 0 (k * 8 + 96)) as [G|G].
      - rewrite Z.mod_small by lia. lia.
      - replace (k * 8 + 96)%Z with (k * 8 + 96 + 2 ^ 64 + (-1) * 2 ^ 64)%Z by lia.
        rewrite Z.mod_add by lia. rewrite Z.mod_small by lia. lia. }
    rewrite E. reflexivity.
Qed.

(* the difference does not fit an int *)
Lemma range_wide m q start stop :
  (stop - start + 1 < - 2 ^ 31 + 1 \/ 2 ^ 31 <= stop - start + 1)%Z -> range m q start stop = UB.
Proof.
  intros H. unfold range, int, int_ok.
  destruct ((- 2 ^ 31 <=? stop - start) && (stop - start <? 2 ^ 31))%Z eqn:E; [|reflexivity].
  cbn [bind]. destruct ((- 2 ^ 31 <=? stop - start + 1) && (stop - start + 1 <? 2 ^ 31))%Z eqn:E2;
  [lia|reflexivity].
Qed.

(* ---- characters ---- *)
Lemma char_loop_spec m text : forall b l,
  holds b l -> b_type b <> T_TUPLE -> b_size b + length text <= cap b ->
  exists b', char_loop m b text = Ok b' /\ holds b' (l ++ map char_word text) /\
    b_type b' = b_type b /\ cap b' = cap b.
Proof.
  induction text as [|c t IH]; intros b l H HT Hc; cbn [char_loop map].
  - exists b. rewrite app_nil_r. auto.
  - cbn [length] in Hc. destruct (append_here_keep m b l (char_word c) H HT) as (b1 & E1 & H1 & T1 & C1); [lia|].
    rewrite E1. cbn [bind].
    assert (S1 : b_size b1 = S (b_size b)).
    { rewrite (proj1 H1), (proj1 H), app_length. simpl; lia. }
    destruct (IH b1 _ H1) as (b' & E & H' & T' & C'); try congruence; try lia.
    exists b'. rewrite <- app_assoc in H'. split; [exact E|]. split; [exact H'|]. split; congruence.
Qed.

Lemma char_word_small c : (0 <= c < 128)%Z -> char_word c = c.
Proof.
  intros H. unfold char_word, wraps, wrapu. change (2 ^ (8 - 1))%Z with 128%Z. change (2 ^ 8)%Z with 256%Z.
  rewrite (Z.mod_small (c + 128)) by lia. rewrite Z.mod_small by lia. lia.
Qed.

Lemma char_word_big c : (128 <= c < 256)%Z -> char_word c = (2 ^ 64 - 256 + c)%Z.
Proof.
  intros H. unfold char_word, wraps, wrapu. change (2 ^ (8 - 1))%Z with 128%Z. change (2 ^ 8)%Z with 256%Z.
  replace (c + 128)%Z with (c - 128 + 1 * 256)%Z by lia. rewrite Z.mod_add by lia.
  rewrite (Z.mod_small (c - 128)) by lia.
  replace (c - 128 - 128)%Z with (2 ^ 64 - 256 + c + (-1) * 2 ^ 64)%Z by lia.
  rewrite Z.mod_add by lia. apply Z.mod_small. lia.
Qed.

(* the word stored for a byte: the byte itself below 128, otherwise all higher bits set *)
Definition word_of_byte (c : Z) : Z := if (c <? 128)%Z then c else (2 ^ 64 - 256 + c)%Z.

Lemma char_word_byte c : (0 <= c < 256)%Z -> char_word c = word_of_byte c.
Proof.
  intros H. unfold word_of_byte. destruct (Z.ltb_spec c 128);
  [apply char_word_small|apply char_word_big]; lia.
Qed.

Lemma range_char_spec m q text : Forall (fun c => 0 <= c < 256)%Z text ->
  exists b, range_char m q text = Ok b /\ holds b (map word_of_byte text) /\
    b_type b = T_RANGE /\ cap b = length text + 1.
Proof.
  intros Hb. unfold range_char.
  destruct (fresh_grow_holds q (length text + 1)) as (H0 & C0 & T0).
  destruct (char_loop_spec m text _ [] H0) as (b & E & H & T & C).
  { rewrite T0; discriminate. } { rewrite C0, (proj1 H0). cbn [length]. lia. }
  rewrite E. cbn [bind]. eexists. split; [reflexivity|]. cbn [app] in H.
  assert (Em : map char_word text = map word_of_byte text).
  { apply map_ext_Forall. eapply Forall_impl; [|exact Hb]. intros c. apply char_word_byte. }
  rewrite Em in H. split; [exact H|]. split; [reflexivity|]. unfold cap in *. cbn [b_cells]. congruence.
Qed.

(* ---- rangeing ---- *)
(* number of values in start, start+steps, ... below stop *)
Definition how_many (start stop steps : Z) : nat :=
  Z.to_nat ((stop - start + steps - 1) / steps).

Lemma how_many_0 start stop steps : (0 < steps)%Z -> (stop <= start)%Z -> how_many start stop steps = 0.
Proof.
  intros H G. unfold how_many. replace 0 with (Z.to_nat 0) by reflexivity.
  assert ((stop - start + steps - 1) / steps < 1)%Z by (apply Z.div_lt_upper_bound; lia). lia.
Qed.

Lemma how_many_S start stop steps : (0 < steps)%Z -> (start < stop)%Z ->
  how_many start stop steps = S (how_many (start + steps)%Z stop steps).
Proof.
  intros H G. unfold how_many.
  replace (stop - start + steps - 1)%Z with (stop - (start + steps) + steps - 1 + 1 * steps)%Z by lia.
  rewrite Z.div_add by lia.
  assert (0 <= (stop - (start + steps) + steps - 1) / steps)%Z by (apply Z.div_pos; lia). lia.
Qed.

(* every value is below stop, and the list is complete *)
Lemma how_many_below start stop steps j : (0 < steps)%Z ->
  (Z.of_nat j < Z.of_nat (how_many start stop steps))%Z <-> (start + steps * Z.of_nat j < stop)%Z.
Proof.
  intros H. unfold how_many. split; intros G.
  - assert (X : (Z.of_nat j + 1 <= (stop - start + steps - 1) / steps)%Z) by lia.
    assert (steps * (Z.of_nat j + 1) <= stop - start + steps - 1)%Z.
    { etransitivity; [apply Z.mul_le_mono_nonneg_l; [lia|exact X]|]. apply Z.mul_div_le; lia. }
    lia.
  - assert (Z.of_nat j + 1 <= (stop - start + steps - 1) / steps)%Z.
    { apply Z.div_le_lower_bound; lia. }
    lia.
Qed.

Lemma happend_room moved (h : heap Z) b l v :
  nth_error h 0 = Some (Some b) -> holds b l -> b_type b <> T_TUPLE -> b_size b < cap b ->
  exists b', happend moved h 0 v = Ok (set_nth 0 (Some b') h) /\ holds b' (l ++ [v]) /\
    b_type b' = b_type b /\ cap b' = cap b.
Proof.
  intros E H HT Hc. destruct (append_keep b l v H HT Hc) as (b' & Ea & Ha & Ta & Ca).
  exists b'. unfold happend, hget. rewrite E. cbn [bind].
  destruct (Nat.leb_spec (cap b) (b_size b)); [lia|]. rewrite Ea. cbn [bind].
  destruct (b_type b) eqn:ET; try congruence; auto.
Qed.

Lemma happend_place (h : heap Z) b l v :
  nth_error h 0 = Some (Some b) -> holds b l -> b_type b <> T_TUPLE -> 0 < cap b ->
  exists b', happend false h 0 v = Ok (set_nth 0 (Some b') h) /\ holds b' (l ++ [v]) /\
    b_type b' = b_type b /\ 0 < cap b'.
Proof.
  intros E H HT Hc. destruct (append_spec Z b l v H HT Hc) as (b' & Ea & Ha & Ta & Ca).
  exists b'. unfold happend, hget. rewrite E. cbn [bind]. rewrite Ea. cbn [bind].
  destruct (b_type b) eqn:ET; try congruence; destruct (Nat.leb (cap b) (b_size b)); auto.
Qed.

Lemma set_nth_0_hd {A} (x : A) h y : nth_error h 0 = Some y -> nth_error (set_nth 0 x h) 0 = Some x.
Proof. destruct h; [discriminate|reflexivity]. Qed.

(* while there is room nothing depends on the allocator *)
Lemma rangeing_loop_room mv stop steps : (0 < steps)%Z -> forall n h k i b l,
  nth_error h 0 = Some (Some b) -> holds b l -> b_type b = T_ARRAY ->
  b_size b + how_many i stop steps <= cap b -> (is_int i)%Z -> (stop + steps <= 2 ^ 31)%Z ->
  how_many i stop steps <= n ->
  exists h' b', rangeing_loop n mv h k i stop steps = Ok h' /\ nth_error h' 0 = Some (Some b') /\
    holds b' (l ++ count_up i steps (how_many i stop steps)) /\ b_type b' = T_ARRAY.
Proof.
  intros Hst. unfold is_int. induction n as [|n IH]; intros h k i b l E H HT Hc Hi Hs Hn; cbn [rangeing_loop].
  - destruct (Z.ltb_spec i stop) as [G|G].
    + rewrite (how_many_S i stop steps) in Hn by lia. lia.
    + exists h, b. rewrite how_many_0 by lia. rewrite app_nil_r. auto.
  - destruct (Z.ltb_spec i stop) as [G|G].
    + rewrite (how_many_S i stop steps) in * by lia.
      destruct (happend_room (mv k) h b l i E H) as (b1 & E1 & H1 & T1 & C1); [congruence|lia|].
      rewrite E1. cbn [bind]. rewrite int_in by lia. cbn [bind].
      assert (S1 : b_size b1 = S (b_size b)).
      { rewrite (proj1 H1), (proj1 H), app_length. simpl; lia. }
      destruct (IH (set_nth 0 (Some b1) h) (S k) (i + steps)%Z b1 (l ++ [i])) as (h' & b' & R & N & Hh & T');
        auto; try lia; try congruence.
      { eapply set_nth_0_hd; eauto. }
      exists h', b'. rewrite R, count_up_cons. rewrite <- app_assoc in Hh. auto.
    + exists h, b. rewrite how_many_0 by lia. rewrite app_nil_r. auto.
Qed.

Lemma rangeing_loop_place mv stop steps : (0 < steps)%Z -> (forall k, mv k = false) -> forall n h k i b l,
  nth_error h 0 = Some (Some b) -> holds b l -> b_type b = T_ARRAY ->
  0 < cap b -> (is_int i)%Z -> (stop + steps <= 2 ^ 31)%Z ->
  how_many i stop steps <= n ->
  exists h' b', rangeing_loop n mv h k i stop steps = Ok h' /\ nth_error h' 0 = Some (Some b') /\
    holds b' (l ++ count_up i steps (how_many i stop steps)) /\ b_type b' = T_ARRAY.
Proof.
  intros Hst Hmv. unfold is_int. induction n as [|n IH]; intros h k i b l E H HT Hc Hi Hs Hn; cbn [rangeing_loop].
  - destruct (Z.ltb_spec i stop) as [G|G].
    + rewrite (how_many_S i stop steps) in Hn by lia. lia.
    + exists h, b. rewrite how_many_0 by lia. rewrite app_nil_r. auto.
  - destruct (Z.ltb_spec i stop) as [G|G].
    + rewrite (how_many_S i stop steps) in * by lia. rewrite Hmv.
      destruct (happend_place h b l i E H) as (b1 & E1 & H1 & T1 & C1); [congruence|lia|].
      rewrite E1. cbn [bind]. rewrite int_in by lia. cbn [bind].
      destruct (IH (set_nth 0 (Some b1) h) (S k) (i + steps)%Z b1 (l ++ [i])) as (h' & b' & R & N & Hh & T');
        auto; try lia; try congruence.
      { eapply set_nth_0_hd; eauto. }
      exists h', b'. rewrite R, count_up_cons. rewrite <- app_assoc in Hh. auto.
    + exists h, b. rewrite how_many_0 by lia. rewrite app_nil_r. auto.
Qed.

Lemma shrink_holds b l : holds b l -> holds (shrink_to_size Z b) l /\ cap (shrink_to_size Z b) = length l.
Proof.
  intros H. unfold shrink_to_size. destruct (grow_holds Z b l (b_size b) H (Nat.le_refl _)) as [A B].
  split; auto. rewrite B. apply H.
Qed.

Lemma rangeing_spec n q mv start stop steps :
  is_int start -> is_int stop -> is_int (stop - start) -> (0 < steps)%Z ->
  (stop + steps <= 2 ^ 31)%Z -> 0 < q -> how_many start stop steps <= n ->
  how_many start stop steps <= q \/ (forall k, mv k = false) ->
  exists b, rangeing n q mv start stop steps = Ok b /\
    holds b (count_up start steps (how_many start stop steps)) /\ b_type b = T_RANGE /\
    cap b = how_many start stop steps.
Proof.
  intros Ha Hb Hd Hs Hm Hq Hn Hor. unfold rangeing. rewrite int_in by exact Hd. cbn [bind].
  assert (HL : exists h' b', rangeing_loop n mv [Some (fresh q)] 0 start stop steps = Ok h' /\
     nth_error h' 0 = Some (Some b') /\ holds b' ([] ++ count_up start steps (how_many start stop steps)) /\ b_type b' = T_ARRAY).
  { destruct Hor as [Hroom|Hpl].
    - eapply rangeing_loop_room; eauto; try reflexivity. apply fresh_holds.
      unfold cap. cbn [fresh b_cells b_size]. rewrite repeat_length. lia.
    - eapply rangeing_loop_place; eauto; try reflexivity. apply fresh_holds.
      unfold cap. cbn [fresh b_cells]. rewrite repeat_length. lia. }
  destruct HL as (h' & b' & R & N & Hh & T). rewrite R. cbn [bind]. unfold hget. rewrite N. cbn [bind].
  cbn [app] in Hh. destruct (shrink_holds b' _ Hh) as [S1 S2]. eexists. split; [reflexivity|].
  split; [exact S1|]. split; [reflexivity|].
  change (cap (shrink_to_size Z b') = how_many start stop steps). rewrite S2. apply count_up_length.
Qed.

(* More values than the first capacity, and the first growth moves the block. *)
Lemma rangeing_loop_split mv stop steps n1 : forall n2 h k i h1,
  (0 < steps)%Z ->
  rangeing_loop n1 mv h k i (i + steps * Z.of_nat n1) steps = Ok h1 ->
  (i + steps * Z.of_nat n1 <= stop)%Z ->
  rangeing_loop (n1 + n2) mv h k i stop steps =
  rangeing_loop n2 mv h1 (k + n1) (i + steps * Z.of_nat n1) stop steps.
Proof.
  induction n1 as [|n1 IH]; intros n2 h k i h1 Hs E Hle.
  - cbn [rangeing_loop] in E. destruct (Z.ltb_spec i (i + steps * Z.of_nat 0)); [lia|].
    injection E as <-. cbn [Nat.add]. rewrite Nat.add_0_r. f_equal. lia.
  - cbn [Nat.add rangeing_loop] in *.
    destruct (Z.ltb_spec i (i + steps * Z.of_nat (S n1))) as [G|G]; [|lia].
    destruct (Z.ltb_spec i stop) as [G2|G2]; [|lia].
    destruct (happend (mv k) h 0 i) as [h2| | |] eqn:Eh; try discriminate. cbn [bind] in *.
    destruct (int (i + steps)) as [i'| | |] eqn:Ei; try discriminate. cbn [bind] in *.
    assert (i' = (i + steps)%Z) as ->.
    { unfold int in Ei. destruct (int_ok (i + steps)); congruence. }
    replace (i + steps * Z.of_nat (S n1))%Z with (i + steps + steps * Z.of_nat n1)%Z in * by lia.
    rewrite (IH n2 h2 (S k) (i + steps)%Z h1 Hs E Hle). f_equal. lia.
Qed.

Lemma rangeing_moved_refuted q mv start stop steps :
  is_int start -> is_int stop -> is_int (stop - start) -> (0 < steps)%Z ->
  (stop + steps <= 2 ^ 31)%Z -> 0 < q -> q < how_many start stop steps -> mv q = true ->
  forall n, how_many start stop steps <= n -> rangeing n q mv start stop steps = UB.
Proof.
  intros Ha Hb Hd Hs Hm Hq Hlt Hmv n Hn. unfold rangeing. rewrite int_in by exact Hd. cbn [bind].
  unfold is_int in *.
  set (i1 := (start + steps * Z.of_nat q)%Z).
  assert (Hi1 : (i1 < stop)%Z) by (apply how_many_below; [exact Hs|lia]).
  assert (Hq1 : how_many start i1 steps = q).
  { unfold how_many, i1. replace (start + steps * Z.of_nat q - start + steps - 1)%Z
      with (steps - 1 + Z.of_nat q * steps)%Z by lia.
    rewrite Z.div_add by lia. rewrite Z.div_small by lia. lia. }
  destruct (rangeing_loop_room mv i1 steps Hs q [Some (fresh q)] 0 start (fresh q) [])
    as (h1 & b1 & R & N & Hh & T); try reflexivity; try lia.
  { apply fresh_holds. }
  { unfold cap. cbn [fresh b_cells b_size]. rewrite repeat_length. lia. }
  { unfold is_int. lia. }
  replace n with (q + S (n - q - 1)) by lia.
  rewrite (rangeing_loop_split mv stop steps q (S (n - q - 1)) _ 0 start h1 Hs R) by (fold i1; lia).
  fold i1. cbn [rangeing_loop Nat.add]. destruct (Z.ltb_spec i1 stop) as [_|]; [|lia].
  rewrite Hq1 in Hh. cbn [app] in Hh.
  assert (Cb : cap b1 = q).
  { (* capacity unchanged while there is room *)
    assert (G : forall n h k i b, nth_error h 0 = Some (Some b) -> forall h', 
        rangeing_loop n mv h k i i1 steps = Ok h' -> b_type b = T_ARRAY -> b_size b <= cap b -> cap b = q ->
        (i1 - i <= steps * (Z.of_nat (cap b) - Z.of_nat (b_size b)))%Z ->
        exists b', nth_error h' 0 = Some (Some b') /\ cap b' = q).
    { clear - Hs. induction n as [|n IH]; intros h k i b E h' R Ht Hsz Hc Hroom; cbn [rangeing_loop] in R.
      - destruct (Z.ltb_spec i i1); [discriminate|]. injection R as <-. eauto.
      - destruct (Z.ltb_spec i i1) as [G|G]; [|injection R as <-; eauto].
        unfold happend, hget in R. rewrite E in R. cbn [bind] in R. rewrite Ht in R.
        assert (b_size b < cap b) by nia.
        destruct (Nat.leb_spec (cap b) (b_size b)); [lia|].
        unfold append in R. rewrite Ht in R. destruct (Nat.leb_spec (cap b) (b_size b)); [lia|].
        unfold wr in R. unfold cap in H. destruct (Nat.ltb_spec (b_size b) (length (b_cells b))); [|lia].
        cbn [bind] in R. destruct (int (i + steps)) as [i'| | |] eqn:Ei; try discriminate. cbn [bind] in R.
        assert (i' = (i + steps)%Z) as -> by (unfold int in Ei; destruct (int_ok (i + steps)); congruence).
        refine (IH _ _ _ _ _ h' R _ _ _ _).
        + eapply set_nth_0_hd; eauto.
        + exact Ht.
        + unfold cap. cbn [b_size b_cells]. rewrite set_nth_length. lia.
        + unfold cap. cbn [b_cells]. rewrite set_nth_length. exact Hc.
        + unfold cap in *. cbn [b_size b_cells]. rewrite set_nth_length. nia. }
    destruct (G q [Some (fresh q)] 0 start (fresh q) eq_refl _ R) as (b'' & N' & C''); try reflexivity.
    - unfold cap. cbn [fresh b_cells b_size]. lia.
    - unfold cap. cbn [fresh b_cells]. apply repeat_length.
    - unfold cap. cbn [fresh b_cells b_size]. rewrite repeat_length. unfold i1. lia.
    - congruence. }
  unfold happend, hget. rewrite N. cbn [bind]. rewrite T.
  assert (Sb : b_size b1 = q) by (rewrite (proj1 Hh), count_up_length; reflexivity).
  destruct (Nat.leb_spec (cap b1) (b_size b1)); [|lia].
  destruct (append_spec Z b1 _ i1 Hh) as (b2 & E2 & _); [congruence|lia|].
  rewrite E2. cbn [bind]. rewrite Hmv.
  assert (Hfin : forall n h k i, nth_error h 0 = Some (@None (block Z)) ->
     match rangeing_loop n mv h k i stop steps with Ok h' => nth_error h' 0 = Some None | UB => True | _ => n = 0 end).
  { intros m h k i Hh0. destruct m as [|m]; cbn [rangeing_loop].
    - destruct (Z.ltb_spec i stop); auto.
    - destruct (Z.ltb_spec i stop); auto. unfold happend, hget. rewrite Hh0. exact I. }
  assert (Hm1 : how_many (i1 + steps) stop steps <= n - q - 1).
  { assert (how_many start stop steps = q + how_many i1 stop steps).
    { unfold how_many. replace (stop - start + steps - 1)%Z with (stop - i1 + steps - 1 + Z.of_nat q * steps)%Z by (unfold i1; lia).
      rewrite Z.div_add by lia. assert (0 <= (stop - i1 + steps - 1) / steps)%Z by (apply Z.div_pos; lia). lia. }
    rewrite (how_many_S i1) in H0 by lia. lia. }
  rewrite int_in by lia. cbn [bind].
  set (h2 := set_nth 0 None h1 ++ [Some b2]).
  assert (N2 : nth_error h2 0 = Some None).
  { unfold h2. destruct h1; [discriminate|reflexivity]. }
  destruct (n - q - 1) as [|m] eqn:Em.
  - cbn [rangeing_loop]. destruct (Z.ltb_spec (i1 + steps) stop) as [G|G].
    + rewrite how_many_S in Hm1 by lia. lia.
    + cbn [bind]. unfold hget. rewrite N2. reflexivity.
  - specialize (Hfin (S m) h2 (S q) (i1 + steps)%Z N2).
    destruct (rangeing_loop (S m) mv h2 (S q) (i1 + steps) stop steps) as [h'| | |]; try discriminate; auto.
    cbn [bind]. unfold hget. rewrite Hfin. reflexivity.
Qed.

(* A step of zero never ends; a step that passes the largest int is undefined. *)
Lemma rangeing_loop_zero mv stop : forall n h k i b,
  nth_error h 0 = Some (Some b) -> b_type b = T_ARRAY -> b_size b <= cap b -> 0 < cap b -> (forall k, mv k = false) ->
  (i < stop)%Z -> is_int i -> rangeing_loop n mv h k i stop 0 = Fuel.
Proof.
  unfold is_int. induction n as [|n IH]; intros h k i b E T Hsz Hc Hmv G Hi; cbn [rangeing_loop];
  destruct (Z.ltb_spec i stop); try lia; auto.
  rewrite Hmv. unfold happend, hget. rewrite E. cbn [bind]. rewrite T.
  assert (HA : exists b', append b i = Ok b' /\ b_type b' = T_ARRAY /\ b_size b' <= cap b' /\ 0 < cap b').
  { unfold append. rewrite T.
    destruct (Nat.leb_spec (cap b) (b_size b)) as [L|L].
    - assert (Eg : length (b_cells (grow b (cap b * 2))) = cap b * 2).
      { unfold grow, cap. cbn [b_cells]. rewrite app_length, firstn_length, repeat_length. lia. }
      assert (Es : b_size (grow b (cap b * 2)) = b_size b) by reflexivity.
      assert (Et : b_type (grow b (cap b * 2)) = T_ARRAY) by exact T.
      generalize dependent (grow b (cap b * 2)). intros g Eg Es Et.
      rewrite wr_ok by lia. cbn [bind]. eexists. split; [reflexivity|].
      split; [exact Et|]. split.
      + change (S (b_size g) <= length (set_nth (b_size g) (Some i) (b_cells g))). rewrite set_nth_length. lia.
      + change (0 < length (set_nth (b_size g) (Some i) (b_cells g))). rewrite set_nth_length. lia.
    - rewrite wr_ok by (unfold cap in L; lia). cbn [bind]. eexists. split; [reflexivity|].
      unfold cap. cbn [b_type b_size b_cells]. rewrite set_nth_length. unfold cap in *. repeat split; auto; lia. }
  destruct HA as (b' & Ea & T' & S' & C'). rewrite Ea. cbn [bind].
  assert (Eif : (if Nat.leb (cap b) (b_size b) then Ok (set_nth 0 (Some b') h) else Ok (set_nth 0 (Some b') h))
     = Ok (set_nth 0 (Some b') h)) by (destruct (Nat.leb (cap b) (b_size b)); reflexivity).
  rewrite Eif. cbn [bind]. rewrite int_in by lia. cbn [bind]. rewrite Z.add_0_r.
  eapply IH; eauto. eapply set_nth_0_hd; eauto.
Qed.

Lemma rangeing_zero_step n q mv start stop :
  is_int start -> is_int (stop - start) -> (start < stop)%Z -> 0 < q -> (forall k, mv k = false) ->
  rangeing n q mv start stop 0 = Fuel.
Proof.
  intros Ha Hd Hl Hq Hmv. unfold rangeing. rewrite int_in by exact Hd. cbn [bind].
  rewrite (rangeing_loop_zero mv stop n _ 0 start (fresh q)); auto; try reflexivity;
  unfold cap; cbn [fresh b_cells b_size]; rewrite repeat_length; lia.
Qed.

(* the last step leaves the int range *)
Lemma rangeing_overflow q mv start stop steps n :
  is_int start -> is_int stop -> is_int (stop - start) -> (0 < steps)%Z -> 0 < q ->
  how_many start stop steps <= q -> 0 < how_many start stop steps <= n ->
  (2 ^ 31 <= start + steps * Z.of_nat (how_many start stop steps))%Z ->
  rangeing n q mv start stop steps = UB.
Proof.
  intros Ha Hb Hd Hs Hq Hroom Hn Hov. unfold rangeing. rewrite int_in by exact Hd. cbn [bind]. unfold is_int in *.
  assert (G : forall n h k i b, nth_error h 0 = Some (Some b) -> b_type b = T_ARRAY ->
      b_size b + how_many i stop steps <= cap b -> is_int i -> 0 < how_many i stop steps <= n ->
      (2 ^ 31 <= i + steps * Z.of_nat (how_many i stop steps))%Z ->
      rangeing_loop n mv h k i stop steps = UB).
  { clear - Hs Hb. unfold is_int. induction n as [|n IH]; intros h k i b E T Hc Hi Hn Hov; [lia|].
    cbn [rangeing_loop]. destruct (Z.ltb_spec i stop) as [G|G].
    2:{ rewrite how_many_0 in Hn by lia. lia. }
    rewrite (how_many_S i stop steps) in * by lia.
    unfold happend, hget. rewrite E. cbn [bind]. rewrite T.
    destruct (Nat.leb_spec (cap b) (b_size b)); [lia|].
    unfold append. rewrite T. destruct (Nat.leb_spec (cap b) (b_size b)); [lia|].
    rewrite wr_ok by (unfold cap in *; lia). cbn [bind].
    unfold int. destruct (int_ok (i + steps)) eqn:Ei; [|reflexivity]. cbn [bind].
    unfold int_ok in Ei.
    eapply IH.
    - eapply set_nth_0_hd; eauto.
    - exact T.
    - unfold cap in *. cbn [b_size b_cells]. rewrite set_nth_length. lia.
    - lia.
    - destruct (how_many (i + steps) stop steps) eqn:Eh; [|lia].
      exfalso. rewrite Nat2Z.inj_succ in Hov. lia.
    - rewrite Nat2Z.inj_succ in Hov. lia. }
  rewrite (G n _ 0 start (fresh q)); auto; try reflexivity.
  unfold cap. cbn [fresh b_cells b_size]. rewrite repeat_length. lia.
Qed.

Lemma rangeing_not_up n q mv start stop steps b :
  (start < stop)%Z -> (steps <= 0)%Z -> rangeing n q mv start stop steps <> Ok b.
Proof.
  intros Hl Hs. unfold rangeing.
  assert (G : forall n h k i, (i < stop)%Z -> match rangeing_loop n mv h k i stop steps with Ok _ => False | _ => True end).
  { clear - Hs. induction n as [|n IH]; intros h k i Hi; cbn [rangeing_loop];
    destruct (Z.ltb_spec i stop); try lia; auto.
    destruct (happend (mv k) h 0 i); cbn [bind]; auto. unfold int.
    destruct (int_ok (i + steps)); cbn [bind]; auto. apply IH. lia. }
  specialize (G n [Some (fresh q)] 0 start Hl).
  destruct (int (stop - start)); cbn [bind]; try discriminate.
  destruct (rangeing_loop n mv [Some (fresh q)] 0 start stop steps); cbn [bind]; try discriminate; tauto.
Qed.

(* Appending to a range afterwards. *)
Fixpoint append_each (moved : bool) (r : ranged) (vs : list Z) : outcome ranged :=
  match vs with [] => Ok r | v :: t => do r' <- append_ranged moved r v; append_each moved r' t end.
Lemma append_ranged_in_place b l v : holds b l -> b_type b <> T_TUPLE -> 0 < cap b ->
  exists b', append_ranged false (Whole b) v = Ok (Whole b') /\ holds b' (l ++ [v]) /\ b_type b' = b_type b /\ 0 < cap b'.
Proof.
  intros H T C. destruct (append_spec Z b l v H T C) as (b' & E & H').
  exists b'. unfold append_ranged, append_here. rewrite andb_false_r, E. split; [reflexivity|exact H'].
Qed.
Lemma append_each_in_place vs : forall b l, holds b l -> b_type b <> T_TUPLE -> 0 < cap b ->
  exists b', append_each false (Whole b) vs = Ok (Whole b') /\ holds b' (l ++ vs).
Proof.
  induction vs as [|v vs IH]; intros b l H T C; cbn [append_each].
  - exists b. rewrite app_nil_r. auto.
  - destruct (append_ranged_in_place b l v H T C) as (b1 & E & H1 & T1 & C1). rewrite E. cbn [bind].
    destruct (IH b1 (l ++ [v])) as (b' & E' & H'); auto; [congruence|]. exists b'. rewrite <- app_assoc in H'. auto.
Qed.
Lemma range_then_append q start stop vs : is_int start -> is_int stop -> (start <= stop)%Z -> (stop - start + 1 < 2 ^ 31)%Z ->
  exists b b', range false q start stop = Ok (Whole b) /\ append_each false (Whole b) vs = Ok (Whole b') /\
    holds b' (count_up start 1 (Z.to_nat (stop - start)) ++ vs).
Proof.
  intros Ha Hb Hc Hd. destruct (range_spec false q start stop) as (b & E & H & T & C); auto; [lia|].
  destruct (append_each_in_place vs b _ H) as (b' & E' & H'); [congruence|lia|]. eauto.
Qed.
(* two appends to a range whose block moves *)
Lemma range_append_moved q start stop v w vs : is_int start -> is_int stop -> (start <= stop)%Z -> (stop - start + 1 < 2 ^ 31)%Z ->
  exists b, range true q start stop = Ok (Whole b) /\ append_each true (Whole b) (v :: w :: vs) = UB.
Proof.
  intros Ha Hb Hc Hd. destruct (range_spec true q start stop) as (b & E & H & T & C); auto; [lia|].
  exists b. split; [exact E|]. cbn [append_each]. unfold append_ranged at 1, append_here at 1.
  assert (Sz : b_size b = Z.to_nat (stop - start)).
  { destruct H as [H0 _]. rewrite H0. apply count_up_length. }
  destruct (Nat.leb_spec (cap b) (b_size b)); [lia|]. cbn [andb].
  unfold append. rewrite T. destruct (Nat.leb_spec (cap b) (b_size b)); [lia|].
  unfold wr. fold (cap b). destruct (Nat.ltb_spec (b_size b) (cap b)); [|lia]. cbn [bind append_ranged].
  unfold append_here. cbn [b_size]. unfold cap. cbn [b_cells]. rewrite set_nth_length. fold (cap b).
  destruct (Nat.leb_spec (cap b) (S (b_size b))); [reflexivity|lia].
Qed.
