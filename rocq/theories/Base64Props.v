(* Properties C13 and C14: base64. *)
From Verif Require Import Base StrModel StrProofs StrProofs2 Base64Model Base64Proofs.

(* [enc64] is RFC 4648 by arithmetic on 24-bit groups.  Sources above 3 * (2^30 - 1) bytes are
   excluded: see C14_huge_source_overruns_refuted. *)
Theorem C13_encode_then_decode : forall s n m,
  Forall is_byte s -> s <> [] -> (Z.of_nat (length s) <= 3 * (2 ^ 30 - 1))%Z ->
  length (enc64 s) + 1 <= n -> Nat.div (length (enc64 s) + 2) 3 * 4 + 1 <= m ->
  str_encode64 s n = Ok (Some (enc64 s ++ [0%Z])) /\
  str_decode64 (enc64 s) m = Ok (Some (s ++ [0%Z])).
Proof. exact encode_then_decode. Qed.
Print Assumptions C13_encode_then_decode.

Theorem C13_encoding_shape : forall s, Forall is_byte s ->
  length (enc64 s) = 4 * Nat.div (length s + 2) 3 /\
  Forall (fun c => in_alphabet c \/ c = 61%Z) (enc64 s).
Proof. exact encoding_shape. Qed.
Print Assumptions C13_encoding_shape.

Theorem C14_encode_fits : forall s dst_len,
  Forall is_byte s -> s <> [] -> (Z.of_nat (length s) <= 3 * (2 ^ 30 - 1))%Z ->
  str_encode64 s dst_len =
  Ok (if Nat.ltb dst_len (length (enc64 s) + 1) then None else Some (enc64 s ++ [0%Z])).
Proof. exact str_encode64_spec. Qed.
Print Assumptions C14_encode_fits.

Theorem C14_empty_source_is_refused : forall dst_len,
  str_encode64 [] dst_len = Ok None /\ str_decode64 [] dst_len = Ok None.
Proof. exact empty_refused. Qed.
Print Assumptions C14_empty_source_is_refused.

Theorem C14_decode_fits_or_refuses : forall s dst_len, Forall is_byte s ->
  exists r, str_decode64 s dst_len = Ok r /\
    match r with Some o => length o <= dst_len /\ exists o', o = o' ++ [0%Z] | None => True end /\
    (r <> None -> s <> [] /\ Nat.modulo (length s) 4 = 0 /\ Forall (fun c => in_alphabet c \/ c = 61%Z) s).
Proof. exact str_decode64_safe. Qed.
Print Assumptions C14_decode_fits_or_refuses.

(* The expected-length mask is 32 bits wide: a source of 3 * (2^30 - 1) + 1 bytes is accepted with a
   one-byte destination. *)
Theorem C14_huge_source_overruns_refuted : forall s, Forall is_byte s ->
  Z.of_nat (length s) = (3 * (2 ^ 30 - 1) + 1)%Z -> str_encode64 s 1 = UB.
Proof. exact encode_huge_overruns. Qed.
Print Assumptions C14_huge_source_overruns_refuted.

Example ex_enc : str_encode64 [77; 97; 110; 255; 1]%Z 9 = Ok (Some [84; 87; 70; 117; 47; 119; 69; 61; 0]%Z).
Proof. reflexivity. Qed.
Example ex_enc_small : str_encode64 [77; 97; 110; 255; 1]%Z 8 = Ok None.
Proof. reflexivity. Qed.
Example ex_dec : str_decode64 [84; 87; 70; 117; 47; 119; 69; 61]%Z 13 = Ok (Some [77; 97; 110; 255; 1; 0]%Z).
Proof. reflexivity. Qed.
Example ex_dec_bad : str_decode64 [84; 87; 70; 117; 47; 119; 69; 33]%Z 13 = Ok None.
Proof. reflexivity. Qed.
