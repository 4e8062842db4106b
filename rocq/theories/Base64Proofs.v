From Verif Require Import Base StrModel StrProofs StrProofs2 Base64Model.

(* ---- Specification: RFC 4648 by arithmetic ---- *)
Definition alpha (i : Z) : Z :=
  (if i <? 26 then 65 + i else if i <? 52 then 71 + i else if i <? 62 then i - 4
   else if i =? 62 then 43 else 47)%Z.
Fixpoint enc64 (s : bytes) : bytes :=
  match s with
  | a :: b :: c :: r =>
    let v := (a * 65536 + b * 256 + c)%Z in
    alpha (v / 262144) :: alpha (v / 4096 mod 64) :: alpha (v / 64 mod 64) :: alpha (v mod 64) :: enc64 r
  | [a; b] =>
    let v := (a * 65536 + b * 256)%Z in
    [alpha (v / 262144); alpha (v / 4096 mod 64); alpha (v / 64 mod 64); 61]%Z
  | [a] =>
    let v := (a * 65536)%Z in
    [alpha (v / 262144); alpha (v / 4096 mod 64); 61; 61]%Z
  | [] => []
  end.
Definition in_alphabet (c : Z) : Prop :=
  (65 <= c <= 90 \/ 97 <= c <= 122 \/ 48 <= c <= 57 \/ c = 43 \/ c = 47)%Z.

(* induction by groups of three *)
Lemma ind3 (P : bytes -> Prop) :
  P [] -> (forall a, P [a]) -> (forall a b, P [a; b]) ->
  (forall a b c r, P r -> P (a :: b :: c :: r)) -> forall s, P s.
Proof.
  intros H0 H1 H2 H3. fix IH 1. intros [|a [|b [|c r]]];
    [exact H0|exact (H1 a)|exact (H2 a b)|exact (H3 a b c r (IH r))].
Qed.

(* ---- bits ---- *)
Lemma lor_add x y k : (0 <= k -> 0 <= y < 2 ^ k -> Z.lor (Z.shiftl x k) y = x * 2 ^ k + y)%Z.
Proof.
  intros Hk Hy. rewrite Z.shiftl_mul_pow2 by lia. symmetry.
  assert (D : Z.land (x * 2 ^ k) y = 0%Z); [|rewrite Z.add_nocarry_lxor, Z.lxor_lor by auto; reflexivity].
  apply Z.bits_inj'. intros n Hn. rewrite Z.land_spec, Z.bits_0.
  destruct (Z.lt_ge_cases n k) as [L|L].
  - rewrite Z.mul_pow2_bits_low by lia. reflexivity.
  - destruct (Z.eq_dec y 0) as [->|Ny]; [rewrite Z.bits_0; apply andb_false_r|].
    rewrite (Z.bits_above_log2 y n); [apply andb_false_r|lia|].
    apply Z.log2_lt_pow2; try lia. apply Z.lt_le_trans with (2 ^ k)%Z; [lia|].
    apply Z.pow_le_mono_r; lia.
Qed.

Lemma land_3 x : Z.land x 3 = (x mod 4)%Z. Proof. exact (Z.land_ones x 2 ltac:(lia)). Qed.
Lemma land_15 x : Z.land x 15 = (x mod 16)%Z. Proof. exact (Z.land_ones x 4 ltac:(lia)). Qed.
Lemma land_63 x : Z.land x 63 = (x mod 64)%Z. Proof. exact (Z.land_ones x 6 ltac:(lia)). Qed.
Lemma shr_2 x : Z.shiftr x 2 = (x / 4)%Z. Proof. exact (Z.shiftr_div_pow2 x 2 ltac:(lia)). Qed.
Lemma shr_4 x : Z.shiftr x 4 = (x / 16)%Z. Proof. exact (Z.shiftr_div_pow2 x 4 ltac:(lia)). Qed.
Lemma shr_6 x : Z.shiftr x 6 = (x / 64)%Z. Proof. exact (Z.shiftr_div_pow2 x 6 ltac:(lia)). Qed.
Lemma shl_2 x : Z.shiftl x 2 = (x * 4)%Z. Proof. exact (Z.shiftl_mul_pow2 x 2 ltac:(lia)). Qed.
Lemma shl_4 x : Z.shiftl x 4 = (x * 16)%Z. Proof. exact (Z.shiftl_mul_pow2 x 4 ltac:(lia)). Qed.

(* ---- tables ---- *)
Lemma sextet_spec i : (0 <= i < 64)%Z -> sextet i = Ok (alpha i).
Proof.
  intros H. unfold sextet.
  assert (S : forallb (fun n => match rd base64_table n with Ok c => (c =? alpha (Z.of_nat n))%Z | _ => false end)
                (seq 0 64) = true) by (vm_compute; reflexivity).
  rewrite forallb_forall in S. specialize (S (Z.to_nat i)).
  assert (In (Z.to_nat i) (seq 0 64)) as I by (apply in_seq; lia). apply S in I.
  destruct (rd base64_table (Z.to_nat i)); try discriminate.
  apply Z.eqb_eq in I. rewrite Z2Nat.id in I by lia. congruence.
Qed.

Lemma alpha_sweep : forallb (fun n => let c := alpha (Z.of_nat n) in
    match dtab c with Ok t => (t =? Z.of_nat n)%Z | _ => false end &&
    negb (c =? 61)%Z && negb (c =? 0)%Z && (0 <=? c)%Z && (c <? 256)%Z) (seq 0 64) = true.
Proof. vm_compute. reflexivity. Qed.

Lemma alpha_spec i : (0 <= i < 64)%Z ->
  dtab (alpha i) = Ok i /\ alpha i <> 61%Z /\ alpha i <> 0%Z /\ is_byte (alpha i) /\ in_alphabet (alpha i).
Proof.
  intros H. pose proof alpha_sweep as S. rewrite forallb_forall in S.
  specialize (S (Z.to_nat i)). rewrite Z2Nat.id in S by lia.
  assert (In (Z.to_nat i) (seq 0 64)) as I by (apply in_seq; lia). apply S in I.
  rewrite !andb_true_iff in I. destruct I as [[[[I1 I2] I3] I4] I5].
  destruct (dtab (alpha i)); try discriminate. apply Z.eqb_eq in I1; subst.
  apply negb_true_iff, Z.eqb_neq in I2. apply negb_true_iff, Z.eqb_neq in I3.
  repeat split; auto; try lia.
  unfold in_alphabet, alpha in *.
  destruct (Z.ltb_spec i 26); [lia|]. destruct (Z.ltb_spec i 52); [lia|].
  destruct (Z.ltb_spec i 62); [lia|]. destruct (Z.eqb_spec i 62); lia.
Qed.

Lemma dtab_eq : dtab 61 = Ok 0%Z. Proof. reflexivity. Qed.

(* exact meaning of the decode table on bytes *)
Lemma dtab_total c : exists t, dtab c = Ok t /\ (0 <= t < 256)%Z.
Proof.
  unfold dtab. assert (0 <= c mod 256 < 256)%Z by lia.
  assert (S : forallb (fun n => match rd decode_table n with Ok t => (0 <=? t)%Z && (t <? 256)%Z | _ => false end)
      (seq 0 256) = true) by (vm_compute; reflexivity).
  rewrite forallb_forall in S.
  assert (In (Z.to_nat (c mod 256)) (seq 0 256)) as I by (apply in_seq; lia). apply S in I.
  destruct (rd decode_table (Z.to_nat (c mod 256))) as [a| | |]; try discriminate. exists a.
  split; auto. apply andb_true_iff in I as [? ?]. lia.
Qed.

Lemma dtab_foreign c : is_byte c -> dtab c = Ok 128%Z <-> ~ (in_alphabet c \/ c = 61%Z).
Proof.
  intros H. unfold is_byte in H.
  assert (S : forallb (fun n => let c := Z.of_nat n in
     Bool.eqb (match dtab c with Ok t => (t =? 128)%Z | _ => false end)
       (negb (((65 <=? c) && (c <=? 90)) || ((97 <=? c) && (c <=? 122)) || ((48 <=? c) && (c <=? 57))
              || (c =? 43) || (c =? 47) || (c =? 61))%Z)) (seq 0 256) = true) by (vm_compute; reflexivity).
  rewrite forallb_forall in S. specialize (S (Z.to_nat c)). cbv zeta in S. rewrite Z2Nat.id in S by lia.
  assert (In (Z.to_nat c) (seq 0 256)) as I by (apply in_seq; lia). apply S in I. clear S.
  apply eqb_prop in I.
  destruct (dtab c) as [t| | |] eqn:E; try (destruct (dtab_total c) as (? & K & _); congruence).
  split.
  - intros [= ->]. cbn in I. unfold in_alphabet. lia.
  - intros Hn. f_equal. unfold in_alphabet in Hn. lia.
Qed.

(* ---- encode ---- *)
Lemma enc64_length s : length (enc64 s) = 4 * Nat.div (length s + 2) 3.
Proof.
  induction s as [| | |a b c r IH] using ind3; try reflexivity.
  cbn [enc64 length]. cbn [length] in IH. rewrite IH.
  replace (S (S (S (length r))) + 2) with (1 * 3 + (length r + 2)) by lia.
  rewrite Nat.div_add_l by lia. lia.
Qed.

Lemma emit4 size out a b c d : length out + 4 <= size ->
  emit size out a = Ok (out ++ [a]) /\ emit size (out ++ [a]) b = Ok (out ++ [a; b]) /\
  emit size (out ++ [a; b]) c = Ok (out ++ [a; b; c]) /\
  emit size (out ++ [a; b; c]) d = Ok (out ++ [a; b; c; d]).
Proof.
  intros H. repeat split; rewrite emit_ok; try (rewrite ?app_length; simpl; lia);
    rewrite <- ?app_assoc; reflexivity.
Qed.

Lemma first_sextet a : is_byte a -> Z.shiftr a 2 = (a * 65536 / 262144)%Z.
Proof. unfold is_byte. rewrite shr_2. lia. Qed.

Lemma enc_loop_spec size (s : bytes) : Forall is_byte s -> forall out,
  length out + length (enc64 s) <= size -> enc_loop size s out = Ok (out ++ enc64 s).
Proof.
  induction s as [|a|a b|a b c r IH] using ind3; intros Hs out Hl.
  - simpl. now rewrite app_nil_r.
  - apply Forall_inv in Hs. unfold is_byte in Hs. cbn [enc_loop enc64] in *. cbv zeta in *.
    rewrite land_3, shr_2, shl_4.
    replace (a * 65536 / 262144)%Z with (a / 4)%Z by lia.
    replace (a * 65536 / 4096 mod 64)%Z with (a mod 4 * 16)%Z by lia.
    rewrite !sextet_spec by lia.
    destruct (emit4 size out (alpha (a / 4)) (alpha (a mod 4 * 16)) 61 61) as (E1 & E2 & E3 & E4);
      [simpl in Hl; lia|].
    cbn [bind]; rewrite E1; cbn [bind]; rewrite E2; cbn [bind]; rewrite E3; cbn [bind]; exact E4.
  - pose proof (Forall_inv Hs) as Ha. pose proof (Forall_inv (Forall_inv_tail Hs)) as Hb.
    unfold is_byte in Ha, Hb. cbn [enc_loop enc64] in *. cbv zeta in *.
    rewrite land_3, land_15, shr_2, shr_4, lor_add, shl_2 by lia. change (2 ^ 4)%Z with 16%Z.
    replace ((a * 65536 + b * 256) / 262144)%Z with (a / 4)%Z by lia.
    replace ((a * 65536 + b * 256) / 4096 mod 64)%Z with (a mod 4 * 16 + b / 16)%Z by lia.
    replace ((a * 65536 + b * 256) / 64 mod 64)%Z with (b mod 16 * 4)%Z by lia.
    rewrite !sextet_spec by lia.
    destruct (emit4 size out (alpha (a / 4)) (alpha (a mod 4 * 16 + b / 16)) (alpha (b mod 16 * 4)) 61)
      as (E1 & E2 & E3 & E4); [simpl in Hl; lia|].
    cbn [bind]; rewrite E1; cbn [bind]; rewrite E2; cbn [bind]; rewrite E3; cbn [bind]; exact E4.
  - pose proof (Forall_inv Hs) as Ha. pose proof (Forall_inv (Forall_inv_tail Hs)) as Hb.
    pose proof (Forall_inv (Forall_inv_tail (Forall_inv_tail Hs))) as Hc.
    apply Forall_inv_tail, Forall_inv_tail, Forall_inv_tail in Hs.
    unfold is_byte in Ha, Hb, Hc. cbn [enc_loop enc64] in *. cbv zeta in *.
    rewrite land_3, land_15, land_63, shr_2, shr_4, shr_6, !lor_add by lia.
    change (2 ^ 4)%Z with 16%Z. change (2 ^ 2)%Z with 4%Z.
    replace ((a * 65536 + b * 256 + c) / 262144)%Z with (a / 4)%Z by lia.
    replace ((a * 65536 + b * 256 + c) / 4096 mod 64)%Z with (a mod 4 * 16 + b / 16)%Z by lia.
    replace ((a * 65536 + b * 256 + c) / 64 mod 64)%Z with (b mod 16 * 4 + c / 64)%Z by lia.
    replace ((a * 65536 + b * 256 + c) mod 64)%Z with (c mod 64)%Z by lia.
    rewrite !sextet_spec by lia.
    destruct (emit4 size out (alpha (a / 4)) (alpha (a mod 4 * 16 + b / 16)) (alpha (b mod 16 * 4 + c / 64)) (alpha (c mod 64)))
      as (E1 & E2 & E3 & E4); [simpl in Hl; lia|].
    cbn [bind]; rewrite E1; cbn [bind]; rewrite E2; cbn [bind]; rewrite E3; cbn [bind]; rewrite E4; cbn [bind].
    rewrite IH; auto.
    + rewrite <- app_assoc. reflexivity.
    + rewrite app_length. cbn [length] in *. lia.
Qed.

Lemma base64_len_spec n : (0 <= n <= 3 * (2 ^ 30 - 1))%Z -> base64_len n = (4 * ((n + 2) / 3))%Z.
Proof.
  intros H. unfold base64_len, wrapu. rewrite (Z.mod_small (4 * n)) by lia.
  rewrite Z.mod_small by lia.
  assert (M : forall x, (0 <= x < 2 ^ 32 -> Z.land x (2 ^ 32 - 4) = 4 * (x / 4))%Z).
  { intros x Hx. 
    assert (Z.land x (2 ^ 32 - 4) = Z.shiftl (Z.shiftr x 2) 2)%Z as ->.
    { apply Z.bits_inj'. intros k Hk. rewrite Z.land_spec.
      change (2 ^ 32 - 4)%Z with (Z.shiftl (Z.ones 30) 2).
      rewrite (Z.shiftl_spec _ _ k), (Z.shiftl_spec _ _ k) by lia.
      destruct (Z.lt_ge_cases k 2) as [L|L].
      - rewrite !(Z.testbit_neg_r _ (k - 2)) by lia. apply andb_false_r.
      - rewrite Z.shiftr_spec by lia. replace (k - 2 + 2)%Z with k by lia.
        destruct (Z.lt_ge_cases (k - 2) 30) as [L2|L2].
        + rewrite Z.ones_spec_low by lia. apply andb_true_r.
        + rewrite Z.ones_spec_high by lia. rewrite andb_false_r. symmetry.
          destruct (Z.eq_dec x 0) as [->|Nx]; [apply Z.bits_0|].
          apply Z.bits_above_log2; [lia|]. apply Z.log2_lt_pow2; [lia|].
          apply Z.lt_le_trans with (2 ^ 32)%Z; [lia|]. apply Z.pow_le_mono_r; lia. }
    rewrite shr_2, shl_2. lia. }
  rewrite M by lia. lia.
Qed.

Lemma str_encode64_spec s dst_len :
  Forall is_byte s -> s <> [] -> (Z.of_nat (length s) <= 3 * (2 ^ 30 - 1))%Z ->
  str_encode64 s dst_len =
  Ok (if Nat.ltb dst_len (length (enc64 s) + 1) then None else Some (enc64 s ++ [0%Z])).
Proof.
  intros Hs Hne Hl. unfold str_encode64.
  destruct (Nat.eqb_spec (length s) 0) as [E|_]; [destruct s; [congruence|discriminate]|].
  rewrite base64_len_spec by lia. rewrite enc64_length.
  assert (EZ : (4 * ((Z.of_nat (length s) + 2) / 3) = Z.of_nat (4 * Nat.div (length s + 2) 3))%Z).
  { rewrite Nat2Z.inj_mul, Nat2Z.inj_div, Nat2Z.inj_add. reflexivity. }
  rewrite EZ.
  destruct (Nat.ltb_spec dst_len (4 * Nat.div (length s + 2) 3 + 1)) as [L|L];
    destruct (Z.ltb_spec (Z.of_nat dst_len) (Z.of_nat (4 * Nat.div (length s + 2) 3) + 1)) as [L2|L2];
    try lia; auto.
  rewrite enc_loop_spec by (auto; rewrite enc64_length; simpl length; lia). cbn [bind app].
  rewrite emit_ok by (rewrite enc64_length; lia). reflexivity.
Qed.

Lemma enc64_chars (s : bytes) : Forall is_byte s -> Forall (fun c => in_alphabet c \/ c = 61%Z) (enc64 s).
Proof.
  induction s as [|a|a b|a b c r IH] using ind3; intros Hs; cbn [enc64]; cbv zeta.
  - constructor.
  - apply Forall_inv in Hs. unfold is_byte in Hs.
    repeat (apply Forall_cons; [first [right; reflexivity | left; apply alpha_spec; lia]|]); auto.
  - pose proof (Forall_inv Hs) as Ha. pose proof (Forall_inv (Forall_inv_tail Hs)) as Hb.
    unfold is_byte in Ha, Hb. repeat (apply Forall_cons; [first [right; reflexivity | left; apply alpha_spec; lia]|]); auto.
  - pose proof (Forall_inv Hs) as Ha. pose proof (Forall_inv (Forall_inv_tail Hs)) as Hb.
    pose proof (Forall_inv (Forall_inv_tail (Forall_inv_tail Hs))) as Hc.
    apply Forall_inv_tail, Forall_inv_tail, Forall_inv_tail in Hs.
    unfold is_byte in Ha, Hb, Hc.
    repeat (apply Forall_cons; [first [right; reflexivity | left; apply alpha_spec; lia]|]); auto.
Qed.

(* ---- decode ---- *)
Lemma in_alphabet_byte c : in_alphabet c \/ c = 61%Z -> is_byte c.
Proof. unfold in_alphabet, is_byte. lia. Qed.

Lemma all_in_alphabet_spec s : Forall is_byte s ->
  exists b, all_in_alphabet s = Ok b /\ (b = true <-> Forall (fun c => in_alphabet c \/ c = 61%Z) s).
Proof.
  induction 1 as [|c s Hc Hs IH]; simpl.
  - exists true. split; auto. split; auto.
  - destruct (dtab_total c) as (t & E & _). rewrite E. cbn [bind].
    pose proof (dtab_foreign c Hc) as F. rewrite E in F.
    assert (D : (in_alphabet c \/ c = 61%Z) \/ ~ (in_alphabet c \/ c = 61%Z)).
    { unfold in_alphabet. lia. }
    destruct (Z.eqb_spec t 128) as [->|N].
    + exists false. split; auto. split; [discriminate|]. intros K. apply Forall_inv in K.
      exfalso. apply F; auto.
    + destruct IH as (b & -> & IH). exists b. split; auto. rewrite IH. split; intros K.
      * constructor; auto. destruct D as [D|D]; auto. exfalso. apply F in D. congruence.
      * now apply Forall_inv_tail in K.
Qed.

Lemma count_valid_all s n : Forall (fun c => in_alphabet c \/ c = 61%Z) s ->
  count_valid s n = Ok (n + length s).
Proof.
  intros H. revert n. induction H as [|c s Hc Hs IH]; intros n; simpl.
  - f_equal; lia.
  - destruct (dtab_total c) as (t & E & _). rewrite E. cbn [bind].
    destruct (Z.eqb_spec t 128) as [->|N].
    + exfalso. apply (dtab_foreign c) in E; auto. now apply in_alphabet_byte.
    + rewrite IH. f_equal. lia.
Qed.

Lemma emit3 size out a b c : length out + 3 <= size ->
  emit size out a = Ok (out ++ [a]) /\ emit size (out ++ [a]) b = Ok (out ++ [a; b]) /\
  emit size (out ++ [a; b]) c = Ok (out ++ [a; b; c]).
Proof.
  intros H. repeat split; rewrite emit_ok; try (rewrite ?app_length; simpl; lia);
    rewrite <- ?app_assoc; reflexivity.
Qed.

(* safety of the decoding loop *)
Lemma dec_loop_safe size s : Forall (fun c => in_alphabet c \/ c = 61%Z) s ->
  forall block pad out,
  length block < 4 -> Forall is_byte block ->
  4 * length out + 3 * (length block + length s) + 4 <= 4 * size ->
  exists r, dec_loop size s block pad out = Ok r /\
    match r with Some o => length o <= size /\ exists o', o = o' ++ [0%Z] | None => True end.
Proof.
  induction 1 as [|c s Hc Hs IH]; intros block pad out Hb Hby Hl.
  - cbn [dec_loop]. rewrite emit_ok by (cbn [length] in *; lia). cbn [bind].
    eexists; split; [reflexivity|]. split; eauto. rewrite app_length; simpl in *; lia.
  - cbn [dec_loop]. destruct (dtab_total c) as (t & E & Ht). rewrite E. cbn [bind].
    destruct (Z.eqb_spec t 128) as [->|N].
    { exfalso. apply (dtab_foreign c) in E; auto. now apply in_alphabet_byte. }
    set (pad' := if (c =? 61)%Z then S pad else pad). cbn [length] in Hl.
    assert (Hby' : Forall is_byte (block ++ [t])).
    { apply Forall_app; split; auto. }
    destruct block as [|b0 [|b1 [|b2 [|b3 block]]]]; cbn [length Nat.ltb Nat.leb] in *; try lia.
    + apply IH; [simpl; lia|exact Hby'|simpl; lia].
    + apply IH; [simpl; lia|exact Hby'|simpl; lia].
    + apply IH; [simpl; lia|exact Hby'|simpl; lia].
    + match goal with |- context [emit size out ?x] => set (e0 := x) end.
      match goal with |- context [emit size _ (byte_of (Z.lor (Z.shiftl b1 4) ?y))] =>
        set (e1 := byte_of (Z.lor (Z.shiftl b1 4) y)) end.
      match goal with |- context [byte_of (Z.lor (Z.shiftl b2 6) ?y)] =>
        set (e2 := byte_of (Z.lor (Z.shiftl b2 6) y)) end.
      destruct (emit3 size out e0 e1 e2) as (E0 & E1 & E2); [lia|].
      rewrite E0; cbn [bind]; rewrite E1; cbn [bind]; rewrite E2; cbn [bind].
      destruct pad' as [|[|[|p]]].
      * apply IH; auto; rewrite ?app_length; simpl; try lia.
      * rewrite emit_ok by (rewrite app_length; simpl; lia). cbn [bind].
        eexists; split; [reflexivity|]. split; eauto. rewrite !app_length; simpl; lia.
      * rewrite emit_ok by (rewrite app_length; simpl; lia). cbn [bind].
        eexists; split; [reflexivity|]. split; eauto. rewrite !app_length; simpl; lia.
      * exists None. auto.
Qed.

Lemma str_decode64_safe s dst_len : Forall is_byte s ->
  exists r, str_decode64 s dst_len = Ok r /\
    match r with Some o => length o <= dst_len /\ exists o', o = o' ++ [0%Z] | None => True end /\
    (r <> None -> s <> [] /\ Nat.modulo (length s) 4 = 0 /\ Forall (fun c => in_alphabet c \/ c = 61%Z) s).
Proof.
  intros Hs. unfold str_decode64, str_is_base64.
  destruct (Nat.eqb_spec (length s) 0) as [E|E].
  { cbn [bind negb]. exists None. repeat split; auto; congruence. }
  destruct (all_in_alphabet_spec s Hs) as (b & -> & Hb). cbn [bind].
  destruct b; cbn [negb]; [|exists None; repeat split; auto; congruence].
  assert (HA : Forall (fun c => in_alphabet c \/ c = 61%Z) s) by (apply Hb; auto).
  destruct (Nat.ltb_spec dst_len (Nat.div (length s + 2) 3 * 4 + 1)) as [L|L].
  { exists None. repeat split; auto; congruence. }
  rewrite count_valid_all by auto. cbn [bind]. rewrite Nat.add_0_l.
  destruct (Nat.eqb_spec (length s) 0); [lia|]. cbn [orb].
  destruct (Nat.eqb_spec (Nat.modulo (length s) 4) 0) as [M|M]; cbn [negb].
  2:{ exists None. repeat split; auto; congruence. }
  destruct (dec_loop_safe dst_len s HA [] 0 []) as (r & -> & Hr);
    [cbn [length]; lia|constructor|cbn [length]; lia|].
  exists r. repeat split; auto. intros ->. now apply E.
Qed.

(* one full group without padding *)
Lemma dec_step size i0 i1 i2 i3 r out :
  (0 <= i0 < 64)%Z -> (0 <= i1 < 64)%Z -> (0 <= i2 < 64)%Z -> (0 <= i3 < 64)%Z ->
  length out + 3 <= size ->
  dec_loop size (alpha i0 :: alpha i1 :: alpha i2 :: alpha i3 :: r) [] 0 out =
  dec_loop size r [] 0 (out ++ [byte_of (i0 * 4 + i1 / 16); byte_of (i1 * 16 + i2 / 4); byte_of (i2 * 64 + i3)])%Z.
Proof.
  intros H0 H1 H2 H3 Hl.
  destruct (alpha_spec i0 H0) as (A0 & B0 & _). destruct (alpha_spec i1 H1) as (A1 & B1 & _).
  destruct (alpha_spec i2 H2) as (A2 & B2 & _). destruct (alpha_spec i3 H3) as (A3 & B3 & _).
  apply Z.eqb_neq in B0, B1, B2, B3.
  cbn [dec_loop]. rewrite A0; cbn [bind]. destruct (Z.eqb_spec i0 128); [lia|]. rewrite B0. cbn [length Nat.ltb Nat.leb app].
  cbn [dec_loop]. rewrite A1; cbn [bind]. destruct (Z.eqb_spec i1 128); [lia|]. rewrite B1. cbn [length Nat.ltb Nat.leb app].
  cbn [dec_loop]. rewrite A2; cbn [bind]. destruct (Z.eqb_spec i2 128); [lia|]. rewrite B2. cbn [length Nat.ltb Nat.leb app].
  cbn [dec_loop]. rewrite A3; cbn [bind]. destruct (Z.eqb_spec i3 128); [lia|]. rewrite B3.
  rewrite shr_4, shr_2, !lor_add by lia.
  match goal with |- context [emit size out ?x] => set (e0 := x) end.
  destruct (emit3 size out e0 (byte_of (i1 * 2 ^ 4 + i2 / 4)) (byte_of (i2 * 2 ^ 6 + i3))) as (E0 & E1 & E2); [lia|].
  rewrite E0; cbn [bind]; rewrite E1; cbn [bind]; rewrite E2; cbn [bind]. reflexivity.
Qed.

Lemma dec_last2 size i0 i1 i2 r out :
  (0 <= i0 < 64)%Z -> (0 <= i1 < 64)%Z -> (0 <= i2 < 64)%Z ->
  length out + 3 <= size ->
  dec_loop size (alpha i0 :: alpha i1 :: alpha i2 :: 61%Z :: r) [] 0 out =
  Ok (Some (out ++ [byte_of (i0 * 4 + i1 / 16); byte_of (i1 * 16 + i2 / 4); 0]))%Z.
Proof.
  intros H0 H1 H2 Hl.
  destruct (alpha_spec i0 H0) as (A0 & B0 & _). destruct (alpha_spec i1 H1) as (A1 & B1 & _).
  destruct (alpha_spec i2 H2) as (A2 & B2 & _).
  apply Z.eqb_neq in B0, B1, B2.
  cbn [dec_loop]. rewrite A0; cbn [bind]. destruct (Z.eqb_spec i0 128); [lia|]. rewrite B0. cbn [length Nat.ltb Nat.leb app].
  cbn [dec_loop]. rewrite A1; cbn [bind]. destruct (Z.eqb_spec i1 128); [lia|]. rewrite B1. cbn [length Nat.ltb Nat.leb app].
  cbn [dec_loop]. rewrite A2; cbn [bind]. destruct (Z.eqb_spec i2 128); [lia|]. rewrite B2. cbn [length Nat.ltb Nat.leb app].
  cbn [dec_loop]. rewrite dtab_eq; cbn [bind]. change (0 =? 128)%Z with false. change (61 =? 61)%Z with true. cbv iota.
  rewrite shr_4, shr_2, !lor_add by lia.
  match goal with |- context [emit size out ?x] => set (e0 := x) end.
  destruct (emit3 size out e0 (byte_of (i1 * 2 ^ 4 + i2 / 4)) (byte_of (i2 * 2 ^ 6 + 0))) as (E0 & E1 & E2); [lia|].
  rewrite E0; cbn [bind]; rewrite E1; cbn [bind]; rewrite E2; cbn [bind].
  rewrite emit_ok by (rewrite app_length; simpl; lia). cbn [bind]. rewrite <- app_assoc. reflexivity.
Qed.

Lemma dec_last1 size i0 i1 r out :
  (0 <= i0 < 64)%Z -> (0 <= i1 < 64)%Z ->
  length out + 3 <= size ->
  dec_loop size (alpha i0 :: alpha i1 :: 61%Z :: 61%Z :: r) [] 0 out =
  Ok (Some (out ++ [byte_of (i0 * 4 + i1 / 16); 0]))%Z.
Proof.
  intros H0 H1 Hl.
  destruct (alpha_spec i0 H0) as (A0 & B0 & _). destruct (alpha_spec i1 H1) as (A1 & B1 & _).
  apply Z.eqb_neq in B0, B1.
  cbn [dec_loop]. rewrite A0; cbn [bind]. destruct (Z.eqb_spec i0 128); [lia|]. rewrite B0. cbn [length Nat.ltb Nat.leb app].
  cbn [dec_loop]. rewrite A1; cbn [bind]. destruct (Z.eqb_spec i1 128); [lia|]. rewrite B1. cbn [length Nat.ltb Nat.leb app].
  cbn [dec_loop]. rewrite dtab_eq; cbn [bind]. change (0 =? 128)%Z with false. change (61 =? 61)%Z with true. cbv iota.
  cbn [length Nat.ltb Nat.leb app].
  cbn [dec_loop]. rewrite ?dtab_eq; cbn [bind]. change (0 =? 128)%Z with false. change (61 =? 61)%Z with true. cbv iota.
  rewrite shr_4, shr_2, !lor_add by lia.
  match goal with |- context [emit size out ?x] => set (e0 := x) end.
  match goal with |- context [emit size _ (byte_of (i1 * ?k + ?y))] => set (e1 := byte_of (i1 * k + y)) end.
  match goal with |- context [emit size _ (byte_of (0 * ?k + ?y))] => set (e2 := byte_of (0 * k + y)) end.
  destruct (emit3 size out e0 e1 e2) as (E0 & E1 & E2); [lia|].
  rewrite E0; cbn [bind]; rewrite E1; cbn [bind]; rewrite E2; cbn [bind].
  rewrite emit_ok by (rewrite app_length; simpl; lia). cbn [bind]. rewrite <- app_assoc. reflexivity.
Qed.

Lemma dec_enc size (s : bytes) : Forall is_byte s -> forall out,
  4 * length out + 3 * length (enc64 s) + 4 <= 4 * size ->
  dec_loop size (enc64 s) [] 0 out = Ok (Some (out ++ s ++ [0%Z])).
Proof.
  induction s as [|a|a b|a b c r IH] using ind3; intros Hs out Hl; cbn [enc64] in *; cbv zeta in *; cbn [length] in Hl.
  - cbn [dec_loop]. rewrite emit_ok by lia. reflexivity.
  - apply Forall_inv in Hs. unfold is_byte in Hs.
    rewrite dec_last1 by lia. do 4 f_equal. unfold byte_of. cbn [app]. f_equal. lia.
  - pose proof (Forall_inv Hs) as Ha. pose proof (Forall_inv (Forall_inv_tail Hs)) as Hb.
    unfold is_byte in Ha, Hb.
    rewrite dec_last2 by lia. do 3 f_equal. unfold byte_of. cbn [app]. f_equal; [lia|]. f_equal. lia.
  - pose proof (Forall_inv Hs) as Ha. pose proof (Forall_inv (Forall_inv_tail Hs)) as Hb.
    pose proof (Forall_inv (Forall_inv_tail (Forall_inv_tail Hs))) as Hc.
    apply Forall_inv_tail, Forall_inv_tail, Forall_inv_tail in Hs.
    unfold is_byte in Ha, Hb, Hc.
    rewrite dec_step by lia. rewrite IH; auto.
    + rewrite <- app_assoc. do 3 f_equal. unfold byte_of. cbn [app]. f_equal; [lia|]. f_equal; [lia|]. f_equal. lia.
    + rewrite app_length. cbn [length]. lia.
Qed.

Lemma decode_encode s n : Forall is_byte s -> s <> [] ->
  Nat.div (length (enc64 s) + 2) 3 * 4 + 1 <= n ->
  str_decode64 (enc64 s) n = Ok (Some (s ++ [0%Z])).
Proof.
  intros Hs Hne Hn. unfold str_decode64, str_is_base64.
  pose proof (enc64_length s) as EL.
  assert (1 <= length s) by (destruct s; [congruence|simpl; lia]).
  destruct (Nat.eqb_spec (length (enc64 s)) 0) as [E|E]; [lia|].
  assert (HB : Forall is_byte (enc64 s)).
  { eapply Forall_impl; [|apply enc64_chars; auto]. intros. now apply in_alphabet_byte. }
  destruct (all_in_alphabet_spec _ HB) as (b & -> & Hb). cbn [bind].
  assert (b = true) by (apply Hb, enc64_chars; auto). subst b. cbn [negb].
  destruct (Nat.ltb_spec n (Nat.div (length (enc64 s) + 2) 3 * 4 + 1)) as [L|L]; [lia|].
  rewrite count_valid_all by (apply enc64_chars; auto). cbn [bind]. rewrite Nat.add_0_l.
  destruct (Nat.eqb_spec (length (enc64 s)) 0); [lia|]. cbn [orb].
  assert (Nat.modulo (length (enc64 s)) 4 = 0) as -> by lia. cbn [Nat.eqb negb].
  rewrite dec_enc; auto. simpl length. lia.
Qed.

(* The 32-bit mask: a source of 3 * (2^30 - 1) + 1 bytes passes the size check with a one-byte
   destination. *)
Lemma encode_huge_overruns s : Forall is_byte s ->
  Z.of_nat (length s) = (3 * (2 ^ 30 - 1) + 1)%Z -> str_encode64 s 1 = UB.
Proof.
  intros Hs Hl. unfold str_encode64.
  destruct s as [|a [|b [|c r]]]; try (simpl in Hl; lia).
  rewrite Hl. change (Nat.eqb (length (a :: b :: c :: r)) 0) with false.
  change (Z.of_nat 1 <? base64_len (3 * (2 ^ 30 - 1) + 1) + 1)%Z with false. cbv iota.
  pose proof (Forall_inv Hs) as Ha. pose proof (Forall_inv (Forall_inv_tail Hs)) as Hb.
  unfold is_byte in Ha, Hb.
  cbn [enc_loop]. rewrite shr_2, sextet_spec by lia. cbn [bind].
  unfold emit at 1. cbn [length Nat.ltb Nat.leb bind app].
  rewrite land_3, shr_4, lor_add, sextet_spec by lia. cbn [bind].
  unfold emit at 1. cbn [length Nat.ltb Nat.leb bind app]. reflexivity.
Qed.

Lemma encode_then_decode s n m :
  Forall is_byte s -> s <> [] -> (Z.of_nat (length s) <= 3 * (2 ^ 30 - 1))%Z ->
  length (enc64 s) + 1 <= n -> Nat.div (length (enc64 s) + 2) 3 * 4 + 1 <= m ->
  str_encode64 s n = Ok (Some (enc64 s ++ [0%Z])) /\
  str_decode64 (enc64 s) m = Ok (Some (s ++ [0%Z])).
Proof.
  intros Hs Hne Hl Hn Hm. split; [|now apply decode_encode].
  rewrite str_encode64_spec by auto. destruct (Nat.ltb_spec n (length (enc64 s) + 1)); [lia|reflexivity].
Qed.

Lemma encoding_shape s : Forall is_byte s ->
  length (enc64 s) = 4 * Nat.div (length s + 2) 3 /\
  Forall (fun c => in_alphabet c \/ c = 61%Z) (enc64 s).
Proof. split; [apply enc64_length|now apply enc64_chars]. Qed.

Lemma empty_refused dst_len : str_encode64 [] dst_len = Ok None /\ str_decode64 [] dst_len = Ok None.
Proof. split; reflexivity. Qed.
