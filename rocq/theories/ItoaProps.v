(* Property C12: integer formatting. *)
From Verif Require Import Base StrModel ItoaModel ItoaProofs.

(* [tmp0], [beyond], [scrape] are arbitrary previous memory contents; the read past tmp is
   tolerated here (flag false). *)
Theorem C12_nonnegative_is_decimal_partial : forall tmp0 beyond scrape x,
  length tmp0 = 20 -> 20 <= length beyond -> 22 <= length scrape ->
  (0 <= x < 2 ^ 31)%Z ->
  exists buf off, str_itoa false tmp0 beyond scrape x = Ok (buf, off) /\ decimal (cstr buf off) x.
Proof.
  intros t b s x H1 H2 H3 H4.
  destruct (str_itoa_spec t b s x H1 H2 H3 ltac:(lia)) as (buf & off & str & E & F & G & _).
  rewrite Z.abs_eq in G by lia. rewrite <- F in G. exact (ex_intro _ buf (ex_intro _ off (conj E G))).
Qed.
Print Assumptions C12_nonnegative_is_decimal_partial.

(* the returned pointer is past the minus sign *)
Theorem C12_sign_is_kept_refuted : forall tmp0 beyond scrape x,
  length tmp0 = 20 -> 20 <= length beyond -> 22 <= length scrape ->
  (- 2 ^ 31 < x < 0)%Z ->
  exists buf off, str_itoa false tmp0 beyond scrape x = Ok (buf, off) /\
    decimal (cstr buf off) (- x) /\ nth_error buf 0 = Some 45%Z /\ off = 1.
Proof.
  intros t b s x H1 H2 H3 H4.
  destruct (str_itoa_spec t b s x H1 H2 H3 ltac:(lia)) as (buf & off & str & E & F & G & I).
  rewrite Z.abs_neq in G by lia. rewrite <- F in G.
  destruct (Z.ltb_spec x 0) as [_|L]; [|lia]. destruct I as [I1 I2].
  exact (ex_intro _ buf (ex_intro _ off (conj E (conj G (conj I2 I1))))).
Qed.
Print Assumptions C12_sign_is_kept_refuted.

Theorem C12_wide_values_are_exact_refuted :
  exists buf off, str_itoa false (repeat 7%Z 20) (repeat 7%Z 20) (repeat 0%Z 64) (2 ^ 32 + 5) = Ok (buf, off) /\
    cstr buf off = [53]%Z.
Proof. exact itoa_large_wrong. Qed.
Print Assumptions C12_wide_values_are_exact_refuted.

(* every call copies 20 bytes starting inside a 20-byte array *)
Theorem C12_copy_stays_inside_scratch_refuted : forall tmp0 beyond scrape x,
  length tmp0 = 20 -> str_itoa true tmp0 beyond scrape x = UB.
Proof. exact str_itoa_strict_ub. Qed.
Print Assumptions C12_copy_stays_inside_scratch_refuted.

Example ex_itoa : match str_itoa false (repeat 1%Z 20) (repeat 2%Z 20) (repeat 3%Z 30) 1203 with
  | Ok (b, o) => cstr b o = [49;50;48;51]%Z | _ => False end.
Proof. reflexivity. Qed.
Example ex_itoa0 : match str_itoa false (repeat 1%Z 20) (repeat 2%Z 20) (repeat 3%Z 30) 0 with
  | Ok (b, o) => cstr b o = [48]%Z | _ => False end.
Proof. reflexivity. Qed.
