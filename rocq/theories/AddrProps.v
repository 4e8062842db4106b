(* Address text: the claims. *)
From Verif Require Import Base StrModel AddrModel AddrProofs.
Local Open Scope Z_scope.

(* C56 *)
Theorem C56_quad_and_port_partial res4 res6 da db dc dd dp a b c d p r : number da a -> number db b -> number dc c -> number dd d -> number dp p ->
  a < 256 -> b < 256 -> c < 256 -> d < 256 -> p < 65536 -> stops digitb r ->
  parse_addr res4 res6 (quad da db dc dd dp ++ r) = Ok (V4 (ip4 a b c d) p).
Proof. exact (parse_quad res4 res6 da db dc dd dp a b c d p r). Qed.
Theorem C56_name_and_port_partial res4 res6 c name dp p ip : letter c -> ~ In 58 (c :: name) -> (length (c :: name) < 260)%nat ->
  number dp p -> p < 65536 -> res4 (c :: name) = Some ip ->
  parse_addr res4 res6 ((c :: name) ++ 58 :: dp) = Ok (V4 ip p).
Proof. exact (parse_name_port res4 res6 c name dp p ip). Qed.
Theorem C56_bare_port_refuted res4 res6 c ds p : 49 <= c <= 57 -> number (c :: ds) p -> p < 2 ^ 32 ->
  parse_addr res4 res6 (c :: ds) = Ok (V4 0 1).
Proof. exact (parse_bare_port res4 res6 c ds p). Qed.
Theorem C56_address_lost_refuted res4 res6 c ds db dc dd a b cc d : 49 <= c <= 57 -> number (c :: ds) a -> number db b -> number dc cc -> number dd d ->
  a < 2 ^ 32 -> b < 2 ^ 32 -> cc < 2 ^ 32 -> d < 2 ^ 32 ->
  parse_addr res4 res6 ((c :: ds) ++ 46 :: db ++ 46 :: dc ++ 46 :: dd) = Ok (V4 0 1).
Proof. exact (parse_no_port res4 res6 c ds db dc dd a b cc d). Qed.
Theorem C56_number_first_refuted res4 res6 c ds r : 49 <= c <= 57 -> Forall dig ds -> stops digitb r -> scan_quad (c :: ds ++ r) = Ok None ->
  parse_addr res4 res6 (c :: ds ++ r) = Ok (V4 0 1).
Proof. exact (parse_number_first res4 res6 c ds r). Qed.
Theorem C56_big_port_refuted res4 res6 da db dc dd dp a b c d p : number da a -> number db b -> number dc c -> number dd d -> number dp p ->
  a < 256 -> b < 256 -> c < 256 -> d < 256 -> 65536 <= p < 2 ^ 32 ->
  exists q, parse_addr res4 res6 (quad da db dc dd dp) = Ok (V4 (ip4 a b c d) q) /\ q = p mod 65536 /\ q <> p.
Proof. exact (parse_port_wraps res4 res6 da db dc dd dp a b c d p). Qed.
Theorem C56_big_octet_refuted res4 res6 da db dc dd dp a b c p : number da a -> number db b -> number dc c -> number dd 256 -> number dp p ->
  a < 256 -> b < 256 -> c < 256 -> p < 65536 ->
  parse_addr res4 res6 (quad da db dc dd dp) = Ok (V4 (ip4 a b (Z.lor c 1) 0) p).
Proof. exact (parse_octet_spills res4 res6 da db dc dd dp a b c p). Qed.

(* in full: blanks, signs, and numbers up to 2^32 - 1 in every place *)
Theorem C56_quad_in_general_partial res4 res6 a b c d p r : part_ok a -> part_ok b -> part_ok c -> part_ok d -> part_ok p -> stops digitb r ->
  parse_addr res4 res6 (ptext a ++ 46 :: ptext b ++ 46 :: ptext c ++ 46 :: ptext d ++ 58 :: ptext p ++ r) =
    Ok (V4 (Z.lor (Z.lor (Z.lor ((pval a * 2 ^ 24) mod 2 ^ 32) ((pval b * 2 ^ 16) mod 2 ^ 32)) ((pval c * 2 ^ 8) mod 2 ^ 32)) (pval d)) (pval p mod 65536)).
Proof. exact (parse_quad_general res4 res6 a b c d p r). Qed.
Theorem C56_huge_number_is_undefined ds v r res4 res6 : number ds v -> 2 ^ 32 <= v -> stops digitb r -> parse_addr res4 res6 (ds ++ r) = UB.
Proof. exact (first_number_too_large ds v r res4 res6). Qed.
(* [address]:port *)
Theorem C56_v6_and_port_partial res4 res6 name ws sg dp neg p ip r : name <> [] -> (length name <= 49)%nat -> ~ In 93 name ->
  numeral ws sg dp neg p -> p < 2 ^ 32 -> stops digitb r -> res6 name = Some ip ->
  parse_addr res4 res6 (91 :: name ++ 93 :: 58 :: ws ++ sg ++ dp ++ r) = Ok (V6 ip (signed neg p mod 65536)).
Proof. exact (parse_v6 res4 res6 name ws sg dp neg p ip r). Qed.
Theorem C56_long_v6_is_refused res4 res6 name r : (49 < length name)%nat -> ~ In 93 name -> (forall n, unknown res4 res6 (91 :: n)) ->
  parse_addr res4 res6 (91 :: name ++ 93 :: r) = Ok Fail.
Proof. exact (parse_v6_long res4 res6 name r). Qed.
(* name:port, whatever the name resolves to *)
Theorem C56_name_in_general_partial res4 res6 c name ws sg dp neg p r : plain c -> c <> 91 -> ~ In 58 (c :: name) ->
  numeral ws sg dp neg p -> p < 2 ^ 32 -> stops digitb r ->
  parse_addr res4 res6 ((c :: name) ++ 58 :: ws ++ sg ++ dp ++ r) =
    Ok (if (length (c :: name) <? 260)%nat then lookup res4 res6 (c :: name) (signed neg p mod 65536) else Fail).
Proof. exact (parse_name res4 res6 c name ws sg dp neg p r). Qed.
Theorem C56_name_without_port_fails res4 res6 c name : plain c -> c <> 91 -> ~ In 58 (c :: name) -> parse_addr res4 res6 ((c :: name) ++ [58]) = Ok Fail.
Proof. exact (parse_name_empty_port res4 res6 c name). Qed.
Theorem C56_name_with_junk_port_fails res4 res6 c name k r : plain c -> c <> 91 -> ~ In 58 (c :: name) -> plain k ->
  parse_addr res4 res6 ((c :: name) ++ 58 :: k :: r) = Ok Fail.
Proof. exact (parse_name_junk res4 res6 c name k r). Qed.
(* no colon *)
Theorem C56_unix_path res4 res6 path : ~ In 58 path -> parse_addr res4 res6 (120 :: path) = Ok (if (length path <? 107)%nat then Unix path else Fail).
Proof. exact (parse_unix res4 res6 path). Qed.
Theorem C56_other_text_fails res4 res6 c s : plain c -> c <> 120 -> ~ In 58 (c :: s) -> parse_addr res4 res6 (c :: s) = Ok Fail.
Proof. exact (parse_bare res4 res6 c s). Qed.
(* decimal, octal and hexadecimal numbers first; a zero is taken for a name *)
Theorem C56_number_text_refuted res4 res6 ws sg neg t : blanks ws -> csign sg neg -> leading t true -> small t -> ~ In 46 t ->
  parse_addr res4 res6 (ws ++ sg ++ t) = Ok (V4 0 1).
Proof. exact (parse_number_text res4 res6 ws sg neg t). Qed.
Theorem C56_zero_text_partial res4 res6 ws sg neg t name ws' sg' dp neg' p r : blanks ws -> csign sg neg -> leading t false -> small t -> ~ In 46 t ->
  ws ++ sg ++ t = name ++ 58 :: ws' ++ sg' ++ dp ++ r -> ~ In 58 name ->
  numeral ws' sg' dp neg' p -> p < 2 ^ 32 -> stops digitb r ->
  parse_addr res4 res6 (ws ++ sg ++ t) = Ok (if (length name <? 260)%nat then lookup res4 res6 name (signed neg' p mod 65536) else Fail).
Proof. exact (parse_zero_text res4 res6 ws sg neg t name ws' sg' dp neg' p r). Qed.

(* 127.0.0.1:8080 *)
Example C56_ex res4 res6 : parse_addr res4 res6 [49; 50; 55; 46; 48; 46; 48; 46; 49; 58; 56; 48; 56; 48] = Ok (V4 (ip4 127 0 0 1) 8080).
Proof. vm_compute. reflexivity. Qed.
Example C56_ex_number : number [56; 48; 56; 48] 8080.
Proof. split; [discriminate|]. split; [|reflexivity]. repeat constructor; discriminate. Qed.
(* 8080 *)
Example C56_ex_bare res4 res6 : parse_addr res4 res6 [56; 48; 56; 48] = Ok (V4 0 1).
Proof. vm_compute. reflexivity. Qed.

(* h:-1 gives port 65535; 0X1f, 017 and 08:80 *)
Example C56_ex_more : parse_addr (fun n => match n with [104] => Some 7 | [48; 56] => Some 9 | _ => None end) (fun _ => None) [104; 58; 45; 49] = Ok (V4 7 65535)
  /\ parse_addr (fun _ => None) (fun _ => None) [48; 88; 49; 102] = Ok (V4 0 1) /\ parse_addr (fun _ => None) (fun _ => None) [48; 49; 55] = Ok (V4 0 1)
  /\ parse_addr (fun n => match n with [104] => Some 7 | [48; 56] => Some 9 | _ => None end) (fun _ => None) [48; 56; 58; 56; 48] = Ok (V4 9 80).
Proof. vm_compute. repeat split; reflexivity. Qed.
Example C56_ex_leading : leading [48; 88; 49; 102] true /\ leading [48; 49; 55] true /\ leading [48; 56; 58; 56; 48] false.
Proof.
  assert (F : forall c l, c <> 48 -> ~ Forall (fun c => c = 48) (c :: l)) by (intros c l N H; inversion H; contradiction).
  repeat split.
  - apply (Hex 88 [49; 102] []); [now right|discriminate|repeat constructor; unfold hexdigit; lia|exact I|split; [intros _; now apply F|reflexivity]].
  - apply (Octal [49; 55] []); [repeat constructor; discriminate|exact I|discriminate|split; [intros _; now apply F|reflexivity]].
  - apply (Octal [] [56; 58; 56; 48]); [constructor|reflexivity| |split; [discriminate|intros H; exfalso; apply H; constructor]].
    intros _ x h k E [X|X]; injection E as E _ _; lia.
Qed.

Print Assumptions C56_quad_and_port_partial.
Print Assumptions C56_name_and_port_partial.
Print Assumptions C56_bare_port_refuted.
Print Assumptions C56_address_lost_refuted.
Print Assumptions C56_number_first_refuted.
Print Assumptions C56_big_port_refuted.
Print Assumptions C56_big_octet_refuted.
Print Assumptions C56_quad_in_general_partial.
Print Assumptions C56_huge_number_is_undefined.
Print Assumptions C56_v6_and_port_partial.
Print Assumptions C56_long_v6_is_refused.
Print Assumptions C56_name_in_general_partial.
Print Assumptions C56_name_without_port_fails.
Print Assumptions C56_name_with_junk_port_fails.
Print Assumptions C56_unix_path.
Print Assumptions C56_other_text_fails.
Print Assumptions C56_number_text_refuted.
Print Assumptions C56_zero_text_partial.
