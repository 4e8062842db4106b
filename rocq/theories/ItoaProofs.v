From Verif Require Import Base StrModel StrProofs ItoaModel.

(* ---- Specification: decimal representation ---- *)
Definition is_digit (c : Z) : Prop := (48 <= c <= 57)%Z.
Definition dec_value (s : bytes) : Z := fold_left (fun v c => (10 * v + (c - 48))%Z) s 0%Z.
(* s is the decimal representation of n: digits only, right value, no superfluous zero *)
Definition decimal (s : bytes) (n : Z) : Prop :=
  Forall is_digit s /\ dec_value s = n /\ s <> [] /\
  (length s = 1 \/ forall r, s <> 48%Z :: r).

Definition two (x : Z) : bytes := [48 + x / 10; 48 + x mod 10]%Z.

Lemma utoa2p_sweep :
  forallb (fun n => match utoa2p (Z.of_nat n) with
     | Ok t => (t mod 256 =? 48 + Z.of_nat n / 10)%Z && (t / 256 =? 48 + Z.of_nat n mod 10)%Z
     | _ => false end) (seq 0 100) = true.
Proof. vm_compute. reflexivity. Qed.

Lemma utoa2p_spec x : (0 <= x < 100)%Z ->
  exists t, utoa2p x = Ok t /\ (t mod 256 = 48 + x / 10)%Z /\ (t / 256 = 48 + x mod 10)%Z.
Proof.
  intros H. pose proof utoa2p_sweep as S. rewrite forallb_forall in S.
  specialize (S (Z.to_nat x)). rewrite Z2Nat.id in S by lia.
  assert (In (Z.to_nat x) (seq 0 100)) as I by (apply in_seq; lia). apply S in I.
  destruct (utoa2p x) as [t| | |]; try discriminate. exists t.
  apply andb_true_iff in I as [A B]. apply Z.eqb_eq in A. apply Z.eqb_eq in B. auto.
Qed.

Lemma utoa2p_ex_spec x a b c r : (0 <= x < 100)%Z ->
  utoa2p_ex x (a ++ b :: c :: r) (length a) = Ok (a ++ two x ++ r).
Proof.
  intros H. unfold utoa2p_ex. destruct (utoa2p_spec x H) as (t & -> & E1 & E2). cbn [bind].
  rewrite wr_ok by (rewrite app_length; simpl; lia). cbn [bind].
  rewrite set_nth_app_r, Nat.sub_diag by lia. cbn [set_nth].
  rewrite wr_ok by (rewrite app_length; simpl; lia).
  rewrite set_nth_app_r by lia. replace (S (length a) - length a) with 1 by lia. cbn [set_nth].
  rewrite E1, E2. reflexivity.
Qed.

Lemma dec_value_acc s v : fold_left (fun v c => (10 * v + (c - 48))%Z) s v =
  (v * 10 ^ Z.of_nat (length s) + dec_value s)%Z.
Proof.
  unfold dec_value. revert v. induction s as [|c s IH]; intros v.
  - cbn. lia.
  - cbn [fold_left length]. rewrite IH, (IH (10 * 0 + (c - 48))%Z).
    rewrite Nat2Z.inj_succ, Z.pow_succ_r by lia. ring.
Qed.

Lemma dec_value_app s t : dec_value (s ++ t) = (dec_value s * 10 ^ Z.of_nat (length t) + dec_value t)%Z.
Proof. unfold dec_value at 1. rewrite fold_left_app. apply dec_value_acc. Qed.

Lemma two_digits x : (0 <= x < 100)%Z -> Forall is_digit (two x) /\ dec_value (two x) = x.
Proof.
  intros H. unfold two, is_digit. split; [repeat constructor; lia|].
  unfold dec_value. cbn [fold_left]. lia.
Qed.

Lemma last_two (l : bytes) p : 2 <= p <= length l ->
  exists b c, l = firstn (p - 2) l ++ b :: c :: skipn p l.
Proof.
  intros H. pose proof (firstn_skipn (p - 2) l) as E.
  assert (L : length (skipn (p - 2) l) = length l - (p - 2)) by apply skipn_length.
  assert (E2 : skipn p l = skipn 2 (skipn (p - 2) l)) by (rewrite skipn_skipn; f_equal; lia).
  destruct (skipn (p - 2) l) as [|b [|c r]]; simpl in L; try lia.
  exists b, c. rewrite E2. simpl. now rewrite E.
Qed.

Lemma utoa2p_ex_at x tmp p : (0 <= x < 100)%Z -> 2 <= p <= length tmp ->
  utoa2p_ex x tmp (p - 2) = Ok (firstn (p - 2) tmp ++ two x ++ skipn p tmp).
Proof.
  intros Hx Hp. destruct (last_two tmp p Hp) as (b & c & E).
  rewrite E at 1. rewrite <- (utoa2p_ex_spec x (firstn (p - 2) tmp) b c) by auto.
  f_equal. rewrite firstn_length. lia.
Qed.

Lemma skipn_two x tmp p : 2 <= p <= length tmp ->
  skipn (p - 2) (firstn (p - 2) tmp ++ two x ++ skipn p tmp) = two x ++ skipn p tmp.
Proof.
  intros H. replace (p - 2) with (length (firstn (p - 2) tmp)) at 1 by (rewrite firstn_length; lia).
  apply skipn_len_app.
Qed.

Lemma length_two x tmp p : 2 <= p <= length tmp ->
  length (firstn (p - 2) tmp ++ two x ++ skipn p tmp) = length tmp.
Proof. intros H. rewrite !app_length, firstn_length, skipn_length. simpl. lia. Qed.

(* the digits produced so far stand from offset p to the end of tmp *)
Lemma itoa_loop_spec : forall fuel x tmp p,
  (0 <= x < 100 ^ Z.of_nat fuel)%Z -> 2 * fuel <= p -> p <= length tmp ->
  Forall is_digit (skipn p tmp) -> 1 <= fuel ->
  exists x' tmp' p', itoa_loop fuel x tmp p = Ok (x', tmp', p') /\
    length tmp' = length tmp /\ p' < p /\ p - p' <= 2 * fuel /\ (0 <= x' < 100)%Z /\
    Forall is_digit (skipn p' tmp') /\
    dec_value (skipn p' tmp') = (x * 10 ^ Z.of_nat (length (skipn p tmp)) + dec_value (skipn p tmp))%Z /\
    (exists r, skipn p' tmp' = two x' ++ r) /\ (1 <= x -> 1 <= x')%Z.
Proof.
  induction fuel as [|fuel IH]; intros x tmp p Hx Hp Hl Hd H1; [lia|].
  cbn [itoa_loop]. destruct (Nat.ltb_spec p 2); [lia|].
  destruct (Z.leb_spec 100 x) as [L|L].
  - assert (Hm : (0 <= x mod 100 < 100)%Z) by lia.
    rewrite utoa2p_ex_at by (auto; lia). cbn [bind].
    set (tmp1 := firstn (p - 2) tmp ++ two (x mod 100) ++ skipn p tmp).
    assert (E1 : skipn (p - 2) tmp1 = two (x mod 100) ++ skipn p tmp) by (apply skipn_two; lia).
    assert (L1 : length tmp1 = length tmp) by (apply length_two; lia).
    destruct (two_digits _ Hm) as [D1 D2].
    assert (Hf : 1 <= fuel).
    { destruct fuel; [|lia]. change (100 ^ Z.of_nat 1)%Z with 100%Z in Hx. lia. }
    destruct (IH (x / 100)%Z tmp1 (p - 2)) as (x' & t' & p' & -> & A & B & C & D & E & F & G & I); auto; try lia.
    + rewrite Nat2Z.inj_succ, Z.pow_succ_r in Hx by lia. split; [lia|].
      apply Z.div_lt_upper_bound; lia.
    + rewrite E1. apply Forall_app; auto.
    + exists x', t', p'. repeat split; auto; try lia.
      * rewrite F, E1, app_length, dec_value_app, D2. change (length (two (x mod 100))) with 2.
        replace (Z.of_nat (2 + length (skipn p tmp))) with (2 + Z.of_nat (length (skipn p tmp)))%Z by lia.
        rewrite Z.pow_add_r by lia. change (10 ^ 2)%Z with 100%Z.
        rewrite (Z.div_mod x 100) at 3 by lia. ring.
  - rewrite utoa2p_ex_at by lia. cbn [bind].
    destruct (two_digits x) as [D1 D2]; [lia|].
    eexists _, _, _. split; [reflexivity|]. rewrite length_two by lia. rewrite skipn_two by lia.
    repeat split; try lia.
    + apply Forall_app; auto.
    + rewrite dec_value_app, D2. reflexivity.
    + now exists (skipn p tmp).
Qed.

Lemma abs_int_small x : (- 2 ^ 31 < x < 2 ^ 31)%Z -> abs_int x = Ok (Z.abs x).
Proof.
  intros H. unfold abs_int. rewrite wraps_id by lia.
  destruct (Z.eqb_spec x (- 2 ^ 31)); [lia|reflexivity].
Qed.

Lemma abs_int_bound x a : abs_int x = Ok a -> (0 <= a < 2 ^ 31)%Z.
Proof.
  unfold abs_int. destruct (Z.eqb_spec (wraps 32 x) (- 2 ^ 31)) as [|N]; [discriminate|].
  intros [= <-]. unfold wraps in *. lia.
Qed.

Lemma digits_nul_free s : Forall is_digit s -> nul_free s.
Proof. apply Forall_impl. unfold is_digit. lia. Qed.

(* the core: 11 rounds are enough for an int and the produced text is decimal *)
Lemma itoa_digits a tmp0 : (0 <= a < 2 ^ 31)%Z -> length tmp0 = 20 ->
  exists x' tmp p, itoa_loop 11 a tmp0 20 = Ok (x', tmp, p) /\ length tmp = 20 /\
    let p' := if (x' <? 10)%Z then S p else p in
    8 <= p /\ p' < 20 /\ decimal (skipn p' tmp) a.
Proof.
  intros Ha Hl.
  (* at most five pairs: run the loop specification with fuel 5, then monotonicity of fuel *)
  assert (Hs : skipn 20 tmp0 = []) by (apply skipn_all2; lia).
  destruct (itoa_loop_spec 5 a tmp0 20) as (x' & t & p & R & A & B & C & D & E & F & G & I); try lia.
  { rewrite Hs; constructor. }
  rewrite Hs in F. cbn [length] in F. change (dec_value []) with 0%Z in F.
  change (10 ^ Z.of_nat 0)%Z with 1%Z in F.
  exists x', t, p.
  assert (Mono : forall f x u q r, itoa_loop f x u q = Ok r -> forall g, f <= g -> itoa_loop g x u q = Ok r).
  { clear. induction f as [|f IH]; intros x u q r H g Hg; [discriminate|].
    destruct g as [|g]; [lia|]. cbn [itoa_loop] in *.
    destruct (Nat.ltb q 2); [discriminate|]. destruct (100 <=? x)%Z; auto.
    destruct (utoa2p_ex (x mod 100) u (q - 2)); cbn [bind] in *; try discriminate.
    apply IH; auto; lia. }
  split; [apply (Mono 5); auto; lia|]. split; [lia|].
  destruct G as [r G]. cbv zeta.
  destruct (Z.ltb_spec x' 10) as [L|L].
  - (* one leading zero dropped *)
    assert (ES : skipn (S p) t = (48 + x' mod 10)%Z :: r).
    { replace (S p) with (1 + p) by lia. rewrite <- skipn_skipn, G. reflexivity. }
    assert (S p < 20 /\ 8 <= p) as [? ?].
    { split; [|lia]. assert (length (skipn p t) = 20 - p) by (rewrite skipn_length; lia).
      rewrite G, app_length in H. change (length (two x')) with 2 in H. lia. }
    split; [auto|split; [auto|]]. rewrite ES.
    rewrite G in E, F. unfold two in E. cbn [app] in E. apply Forall_inv_tail in E.
    split; [auto|]. split.
    + change (two x' ++ r) with ([48 + x' / 10] ++ (48 + x' mod 10) :: r)%Z in F.
      rewrite dec_value_app in F. unfold dec_value at 1 in F. cbn [fold_left] in F.
      replace (x' / 10)%Z with 0%Z in F by lia. lia.
    + split; [discriminate|].
      destruct (Z.eq_dec x' 0) as [Z0|NZ].
      * left. simpl. (* x' = 0 means a = 0, so nothing else was written *)
        assert (a = 0)%Z by lia.
        destruct r; auto. exfalso.
        (* with a = 0 the loop stops at once *)
        subst a. cbn [itoa_loop] in R. change (Nat.ltb 20 2) with false in R.
        change (100 <=? 0)%Z with false in R. cbv iota in R.
        rewrite (utoa2p_ex_at 0 tmp0 20) in R by lia. cbn [bind] in R.
        assert (p = 20 - 2) by congruence. subst p.
        apply (f_equal (@length _)) in ES. rewrite skipn_length in ES. simpl length in ES. lia.
      * right. intros q Q. apply (f_equal (hd 0%Z)) in Q. unfold two in Q. cbn [hd app] in Q. lia.
  - assert (p < 20 /\ 8 <= p) as [? ?] by lia.
    split; [auto|split; [auto|]]. split; [auto|]. split; [lia|]. rewrite G. split; [discriminate|].
    right. intros q Q. apply (f_equal (hd 0%Z)) in Q. unfold two in Q. cbn [hd app] in Q. lia.
Qed.

Lemma str_itoa_strict_ub tmp0 beyond scrape x :
  length tmp0 = 20 -> str_itoa true tmp0 beyond scrape x = UB.
Proof.
  intros Hl. unfold str_itoa. unfold wr. destruct (Nat.ltb 0 (length scrape)); auto. cbn [bind].
  destruct (abs_int x) as [a| | |] eqn:E; auto.
  2,3: unfold abs_int in E; destruct (wraps 32 x =? - 2 ^ 31)%Z; discriminate.
  cbn [bind]. destruct (itoa_digits a tmp0 (abs_int_bound _ _ E) Hl) as (x' & t & p & -> & _ & H1 & H2 & _).
  cbn [bind andb]. cbv zeta in *. 
  destruct (Nat.ltb_spec 20 ((if (x' <? 10)%Z then S p else p) + 20)) as [L|L]; auto.
  destruct (x' <? 10)%Z; lia.
Qed.

Lemma str_itoa_spec tmp0 beyond scrape x :
  length tmp0 = 20 -> 20 <= length beyond -> 22 <= length scrape ->
  (- 2 ^ 31 < x < 2 ^ 31)%Z ->
  exists buf off s, str_itoa false tmp0 beyond scrape x = Ok (buf, off) /\
    cstr buf off = s /\ decimal s (Z.abs x) /\
    (if (x <? 0)%Z then off = 1 /\ nth_error buf 0 = Some 45%Z else off = 0).
Proof.
  intros Ht Hb Hs Hx. unfold str_itoa.
  rewrite wr_ok by lia. cbn [bind]. rewrite abs_int_small by auto. cbn [bind].
  destruct (itoa_digits (Z.abs x) tmp0) as (x' & t & p & -> & Hlt & H1 & H2 & H3); auto; try lia.
  cbn [bind andb]. cbv zeta in *.
  set (p' := if (x' <? 10)%Z then S p else p) in *.
  set (off := if (x <? 0)%Z then 1 else 0).
  set (s1 := set_nth 0 45%Z scrape).
  set (src := firstn 20 (skipn p' (t ++ beyond))).
  assert (Hoff : off <= 1) by (unfold off; destruct (x <? 0)%Z; lia).
  assert (Ls1 : length s1 = length scrape) by apply set_nth_length.
  assert (Lsrc : length src = 20).
  { unfold src. rewrite firstn_length, skipn_length, app_length. lia. }
  rewrite Ls1, Lsrc. destruct (Nat.ltb_spec (length scrape) (off + 20)); [lia|].
  change (Nat.ltb 20 20) with false. cbn [orb].
  set (s2 := firstn off s1 ++ src ++ skipn (off + 20) s1).
  assert (Ls2 : length s2 = length scrape).
  { unfold s2. rewrite !app_length, firstn_length, skipn_length, Lsrc. lia. }
  rewrite wr_ok by lia. cbn [bind].
  eexists _, _, _. split; [reflexivity|]. split; [reflexivity|].
  assert (Esrc : src = skipn p' t ++ skipn (20 - p') src).
  { rewrite <- (firstn_skipn (20 - p') src) at 1. f_equal.
    unfold src. rewrite firstn_firstn. rewrite Nat.min_l by lia.
    rewrite skipn_app. rewrite firstn_app.
    rewrite skipn_length. replace (20 - p' - (length t - p')) with 0 by lia. rewrite firstn_O.
    rewrite app_nil_r. apply firstn_all2. rewrite skipn_length. lia. }
  assert (Ldig : length (skipn p' t) = 20 - p') by (rewrite skipn_length; lia).
  assert (Lf : length (firstn off s1) = off) by (rewrite firstn_length; lia).
  assert (ES : exists r, set_nth (off + (20 - p')) 0%Z s2 = firstn off s1 ++ skipn p' t ++ 0%Z :: r).
  { unfold s2. rewrite Esrc.
    rewrite set_nth_app_r by lia. rewrite Lf. replace (off + (20 - p') - off) with (20 - p') by lia.
    rewrite <- app_assoc. rewrite set_nth_app_r by lia. rewrite Ldig, Nat.sub_diag.
    assert (LL : length (skipn (20 - p') src) = p') by (rewrite skipn_length; lia).
    destruct (skipn (20 - p') src) as [|y q].
    - exfalso. assert (8 <= p') by (unfold p'; destruct (x' <? 10)%Z; lia). cbn [length] in LL. lia.
    - eexists. reflexivity. }
  destruct ES as [r ->]. split.
  - replace (cstr (firstn off s1 ++ skipn p' t ++ 0%Z :: r) off) with (skipn p' t); auto.
    rewrite <- Lf at 2. rewrite cstr_app; auto. apply digits_nul_free. apply H3.
  - unfold off, s1. destruct (x <? 0)%Z; auto. split; auto.
    destruct scrape; [simpl in Hs; lia|]. reflexivity.
Qed.

Lemma itoa_large_wrong :
  exists buf off, str_itoa false (repeat 7%Z 20) (repeat 7%Z 20) (repeat 0%Z 64) (2 ^ 32 + 5) = Ok (buf, off) /\
    cstr buf off = [53]%Z.
Proof. eexists _, _. split; vm_compute; reflexivity. Qed.

Lemma decimal_unique s n m : decimal s n -> decimal s m -> n = m.
Proof. intros (_ & <- & _) (_ & <- & _). reflexivity. Qed.
