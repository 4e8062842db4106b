(* Properties C82 to C86: exploding, binary splitting, concatenation and letter case, host texts,
   path components. *)
From Verif Require Import Base ArrayModel ArrayProofs StrModel StrProofs AddrModel AddrProofs TextModel TextProofs TextProofs2 TextProofs3.

(* ---- C82 ---- *)
(* Two or more parts: the array holds exactly the parts, as long as they fit the array's first
   block or the allocator grows in place. *)
Theorem C82_explode_partial : forall n q moves s d ps,
  d <> [] -> s <> [] -> nul_free s -> splits d s ps -> 2 <= length ps -> length s <= n -> 0 < q ->
  length ps <= q \/ (forall k, moves k = false) ->
  exists buf b offs, str_explode n q moves s d = Ok (Some (buf, b)) /\ holds b offs /\
    map (cstr buf) offs = ps.
Proof. exact explode_spec. Qed.
Print Assumptions C82_explode_partial.

Example C82_ex_explode :
  match str_explode 9 4 (fun _ => true) [97; 44; 98; 99]%Z [44%Z] with
  | Ok (Some (buf, b)) => match elements b with Ok offs => map (cstr buf) offs = [[97]; [98; 99]]%Z | _ => False end
  | _ => False end.
Proof. vm_compute. reflexivity. Qed.

(* A text without the delimiter gives an empty array instead of the one part. *)
Theorem C82_single_part_refuted : forall n q moves s d, s <> [] -> (forall i, ~ occurs d s i) ->
  str_explode n q moves s d = Ok (Some ([], fresh q)).
Proof. exact explode_no_delim. Qed.
Print Assumptions C82_single_part_refuted.

(* More parts than the first block holds, and the block moves. *)
Theorem C82_many_parts_refuted : forall n q moves s d ps,
  d <> [] -> s <> [] -> nul_free s -> splits d s ps -> length s <= n -> 0 < q ->
  q < length ps -> moves q = true -> str_explode n q moves s d = UB.
Proof. exact explode_moved. Qed.
Print Assumptions C82_many_parts_refuted.

Example C82_ex_many : str_explode 9 2 (fun _ => true) [97; 44; 98; 44; 99]%Z [44%Z] = UB.
Proof. vm_compute. reflexivity. Qed.

(* An empty delimiter never ends. *)
Theorem C82_empty_delimiter_refuted : forall n q moves s, s <> [] -> str_explode n q moves s [] = Fuel.
Proof. exact explode_empty_delim. Qed.
Print Assumptions C82_empty_delimiter_refuted.

(* ---- C83 ---- *)
(* Any bytes, including zeros: every part stands at its offset, followed by a zero. *)
Theorem C83_binary_split : forall n s d ps, d <> [] -> s <> [] -> splits d s ps -> length s <= n ->
  exists buf ptrs, mem_split n s d = Ok (Some (buf, ptrs, length ps)) /\ Forall2 (part_at buf) ptrs ps.
Proof. exact mem_split_spec. Qed.
Print Assumptions C83_binary_split.

(* Read as C strings the parts end at their first zero. *)
Theorem C83_binary_split_strings : forall n s d ps, d <> [] -> s <> [] -> splits d s ps -> length s <= n ->
  exists buf ptrs, mem_split n s d = Ok (Some (buf, ptrs, length ps)) /\
    map (cstr buf) ptrs = map until_nul ps.
Proof. exact mem_split_words. Qed.
Print Assumptions C83_binary_split_strings.

Example C83_ex : 
  match mem_split 9 [97; 0; 44; 98; 44]%Z [44%Z] with
  | Ok (Some (buf, ptrs, c)) => (buf, ptrs, c) = ([97; 0; 0; 98; 0; 0]%Z, [0; 3; 5], 3) | _ => False end.
Proof. vm_compute. reflexivity. Qed.

Theorem C83_empty_delimiter_refuted : forall n s, s <> [] -> mem_split n s [] = Fuel.
Proof. exact mem_split_empty_delim. Qed.
Print Assumptions C83_empty_delimiter_refuted.

(* ---- C84 ---- *)
Theorem C84_concatenation : forall args, args <> [] -> Forall nul_free args ->
  exists b, str_cat args = Ok (Some b) /\ cstr b 0 = concat args /\ length b = align2 (length (concat args) + 1).
Proof. exact str_cat_text. Qed.
Print Assumptions C84_concatenation.

Theorem C84_upper : forall s r, nul_free s ->
  str_toupper (s ++ 0%Z :: r) = Ok (map (swap_case smalls capitals) s ++ 0%Z :: r).
Proof. exact toupper_spec. Qed.
Print Assumptions C84_upper.

Theorem C84_lower : forall s r, nul_free s ->
  str_tolower (s ++ 0%Z :: r) = Ok (map (swap_case capitals smalls) s ++ 0%Z :: r).
Proof. exact tolower_spec. Qed.
Print Assumptions C84_lower.

Example C84_ex : str_cat [[97]; []; [98; 99]]%Z = Ok (Some [97; 98; 99; 0]%Z) /\
  str_toupper [97; 49; 123; 0; 97]%Z = Ok [65; 49; 123; 0; 97]%Z.
Proof. split; reflexivity. Qed.

(* ---- C85 ---- *)
(* Four parts (or an accepted shortening of at least seven characters) with a port. *)
Theorem C85_host_port_partial : forall ts vs ip port p, Forall2 octet ts vs -> filled vs ip -> 7 <= length (dotted ts) ->
  port_text port p -> ~ In 47%Z port -> ~ In 93%Z port -> short_text (dotted ts ++ 58%Z :: port) ->
  str_parseip true (dotted ts ++ 58%Z :: port) =
  Ok (mkp (Copied true (dotted ts)) (Some ip) (Some p) (dotted ts ++ 58%Z :: port)).
Proof. exact parse_port. Qed.
Print Assumptions C85_host_port_partial.

Theorem C85_scheme_host_port_partial : forall sch ts vs ip port p, ~ In 47%Z sch -> 4 <= length sch ->
  Forall2 octet ts vs -> filled vs ip -> 7 <= length (dotted ts) ->
  port_text port p -> ~ In 93%Z port -> (Z.of_nat (length (dotted ts ++ 58 :: port)) <= 259)%Z ->
  short_text (sch ++ slashes ++ dotted ts ++ 58%Z :: port) ->
  str_parseip true (sch ++ slashes ++ dotted ts ++ 58%Z :: port) =
  Ok (mkp (Copied true (dotted ts)) (Some ip) (Some p) (sch ++ slashes ++ dotted ts ++ 58%Z :: port)).
Proof. exact parse_scheme_port. Qed.
Print Assumptions C85_scheme_host_port_partial.

Theorem C85_quad_is_long_enough : forall a b c d x y z w, Forall2 octet [a; b; c; d] [x; y; z; w] ->
  7 <= length (dotted [a; b; c; d]).
Proof. exact four_length. Qed.
Print Assumptions C85_quad_is_long_enough.

Theorem C85_name_port_partial : forall host port p, no_number host -> ~ In 58%Z host -> 7 <= length host -> port_text port p ->
  ~ In 47%Z (host ++ 58%Z :: port) -> ~ In 93%Z (host ++ 58%Z :: port) -> short_text (host ++ 58%Z :: port) ->
  str_parseip true (host ++ 58%Z :: port) = Ok (mkp (Copied true host) None (Some p) (host ++ 58%Z :: port)).
Proof. exact parse_name_port. Qed.
Print Assumptions C85_name_port_partial.

Theorem C85_scheme_name_partial : forall af sch host, ~ In 47%Z sch -> 4 <= length sch -> no_number host ->
  ~ In 93%Z host -> ~ In 58%Z host -> length host <= 259 -> short_text (sch ++ slashes ++ host) ->
  str_parseip af (sch ++ slashes ++ host) = Ok (mkp (Copied true host) None None (sch ++ slashes ++ host)).
Proof. exact parse_scheme_name. Qed.
Print Assumptions C85_scheme_name_partial.

Theorem C85_bare_address_partial : forall ts vs ip, Forall2 octet ts vs -> filled vs ip -> short_text (dotted ts) ->
  str_parseip true (dotted ts) = Ok (mkp Own (Some ip) None (dotted ts)).
Proof. exact (parse_plain true). Qed.
Print Assumptions C85_bare_address_partial.

Theorem C85_too_few_parts : forall af ts vs, Forall2 octet ts vs ->
  (length ts = 1 \/ length ts = 2 /\ (128 <= hd 0 vs)%Z) -> (hd 0 vs < 192)%Z -> short_text (dotted ts) ->
  str_parseip af (dotted ts) = Ok (mkp (if af then Own else Null) None None (dotted ts)).
Proof. exact parse_too_few. Qed.
Print Assumptions C85_too_few_parts.

Example C85_ex_octets : octet [49; 48]%Z 10 /\ octet [48; 120; 102]%Z 15 /\ octet [48; 49; 50]%Z 10.
Proof.
  unfold octet. split; [|split].
  - exists 10%Z. split; [apply (Lit10 49 [48]%Z); [lia|repeat constructor; unfold dig; lia]|]. cbn; lia.
  - exists 15%Z. split; [apply (Lit16 120 [102]%Z); [lia|discriminate|repeat constructor; unfold hexdigit; lia]|]. cbn; lia.
  - exists 10%Z. split; [apply (Lit8 [49; 50]%Z); repeat constructor; unfold octal; lia|]. cbn; lia.
Qed.
(* "10.0.0.1:80" *)
Example C85_ex_parse : str_parseip true [49;48;46;48;46;48;46;49;58;56;48]%Z =
  Ok (mkp (Copied true [49;48;46;48;46;48;46;49]%Z) (Some [Some 10; Some 0; Some 0; Some 1]%Z) (Some 80%Z) [49;48;46;48;46;48;46;49;58;56;48]%Z).
Proof. vm_compute. reflexivity. Qed.

(* The same without autofree reads the freed split, whatever the host. *)
Theorem C85_not_autofree_refuted : forall host port p, ~ In 58%Z host -> 7 <= length host -> port_text port p ->
  ~ In 47%Z (host ++ 58%Z :: port) -> ~ In 93%Z (host ++ 58%Z :: port) -> short_text (host ++ 58%Z :: port) ->
  str_parseip false (host ++ 58%Z :: port) = UB.
Proof. exact parse_port_freed. Qed.
Print Assumptions C85_not_autofree_refuted.

Theorem C85_scheme_not_autofree_refuted : forall sch host port p, ~ In 47%Z sch -> 4 <= length sch ->
  ~ In 58%Z host -> 7 <= length host -> port_text port p -> ~ In 93%Z (host ++ 58%Z :: port) ->
  (Z.of_nat (length (host ++ 58 :: port)) <= 259)%Z -> short_text (sch ++ slashes ++ host ++ 58%Z :: port) ->
  str_parseip false (sch ++ slashes ++ host ++ 58%Z :: port) = UB.
Proof. exact parse_scheme_freed. Qed.
Print Assumptions C85_scheme_not_autofree_refuted.

(* A bare address without autofree gives no text at all. *)
Theorem C85_bare_not_autofree_refuted : forall ts vs ip, Forall2 octet ts vs -> filled vs ip -> short_text (dotted ts) ->
  str_parseip false (dotted ts) = Ok (mkp Null (Some ip) None (dotted ts)).
Proof. exact (parse_plain false). Qed.
Print Assumptions C85_bare_not_autofree_refuted.

(* Hosts of up to six characters lose their port. *)
Theorem C85_short_host_refuted : forall af host port r, ~ In 58%Z host -> length host <= 6 ->
  ~ In 47%Z (host ++ 58%Z :: port) -> ~ In 93%Z (host ++ 58%Z :: port) -> short_text (host ++ 58%Z :: port) ->
  str_parseip af (host ++ 58%Z :: port) = Ok r -> p_port r = None.
Proof. exact parse_short_host. Qed.
Print Assumptions C85_short_host_refuted.

Theorem C85_short_name_refuted : forall af host port, no_number host -> ~ In 58%Z host -> length host <= 6 ->
  ~ In 47%Z (host ++ 58%Z :: port) -> ~ In 93%Z (host ++ 58%Z :: port) -> short_text (host ++ 58%Z :: port) ->
  str_parseip af (host ++ 58%Z :: port) = Ok (mkp (if af then Own else Null) None None (host ++ 58%Z :: port)).
Proof. exact parse_short_name. Qed.
Print Assumptions C85_short_name_refuted.

(* scheme://address without a port: the pointer returned is made of the text's first bytes. *)
Theorem C85_wild_pointer_refuted : forall sch ts vs ip, ~ In 47%Z sch -> 4 <= length sch ->
  Forall2 octet ts vs -> filled vs ip -> 7 <= length (dotted ts) <= 259 ->
  short_text (sch ++ slashes ++ dotted ts) ->
  str_parseip true (sch ++ slashes ++ dotted ts) =
  Ok (mkp (Wild (firstn 8 (dotted ts ++ [0%Z]))) (Some ip) None (sch ++ slashes ++ dotted ts)).
Proof. exact parse_wild. Qed.
Print Assumptions C85_wild_pointer_refuted.

Theorem C85_wild_short_refuted : forall sch ts vs ip, ~ In 47%Z sch -> 4 <= length sch ->
  Forall2 octet ts vs -> filled vs ip -> length (dotted ts) <= 5 ->
  short_text (sch ++ slashes ++ dotted ts) ->
  str_parseip true (sch ++ slashes ++ dotted ts) = UB.
Proof. exact parse_wild_short. Qed.
Print Assumptions C85_wild_short_refuted.

(* "udp://1.2.3.4" *)
Example C85_ex_wild : match str_parseip true [117;100;112;58;47;47;49;46;50;46;51;46;52]%Z with
  Ok r => p_ret r = Wild [49;46;50;46;51;46;52;0]%Z | _ => False end.
Proof. vm_compute. reflexivity. Qed.

(* [address]:port: the caller's own text is cut and no address is stored. *)
Theorem C85_bracket_cuts_caller_refuted : forall af pre port p, ~ In 93%Z pre ->
  ~ In 47%Z (pre ++ 93%Z :: 58%Z :: port) -> 4 <= length pre -> port_text port p ->
  short_text (pre ++ 93%Z :: 58%Z :: port) ->
  str_parseip af (pre ++ 93%Z :: 58%Z :: port) = Ok (mkp (Copied af (pre ++ [93%Z])) None (Some p) (pre ++ [93%Z])).
Proof. exact parse_bracket. Qed.
Print Assumptions C85_bracket_cuts_caller_refuted.

(* Text after a fourth part is ignored; numbers of 2^32 and more count modulo 2^32. *)
Theorem C85_trailing_text_refuted : forall a b c d x y z w k, Forall2 octet [a; b; c; d] [x; y; z; w] ->
  ~ In 47%Z k -> ~ In 93%Z k -> ~ In 58%Z k -> short_text (dotted [a; b; c; d] ++ 46%Z :: k) ->
  str_parseip true (dotted [a; b; c; d] ++ 46%Z :: k) =
  Ok (mkp Own (Some [Some x; Some y; Some z; Some w]) None (dotted [a; b; c; d] ++ 46%Z :: k)).
Proof. exact parse_junk. Qed.
Print Assumptions C85_trailing_text_refuted.

(* "4294967297.0.0.1" *)
Example C85_ex_wraps : match str_parseip true [52;50;57;52;57;54;55;50;57;55;46;48;46;48;46;49]%Z with
  Ok r => p_ip r = Some [Some 1; Some 0; Some 0; Some 1]%Z | _ => False end.
Proof. vm_compute. reflexivity. Qed.

(* From 192 on a shortened address stores bytes that were never written. *)
Theorem C85_unwritten_bytes_refuted : forall af ts vs, Forall2 octet ts vs -> 1 <= length ts <= 3 ->
  (192 <= hd 0 vs)%Z -> short_text (dotted ts) ->
  exists n, 1 <= n /\
  str_parseip af (dotted ts) = Ok (mkp (if af then Own else Null) (Some (map Some vs ++ repeat None n)) None (dotted ts)).
Proof. exact parse_unwritten. Qed.
Print Assumptions C85_unwritten_bytes_refuted.

Theorem C85_empty_text_refuted : forall af, str_parseip af [] = UB.
Proof. exact parse_nothing. Qed.
Print Assumptions C85_empty_text_refuted.

(* At most three good parts and then one that is no number below 256: no address is stored, whatever follows. *)
Theorem C85_bad_part_refused : forall af ts vs b r, Forall2 octet ts vs -> length ts <= 3 -> bad_part b -> dot_next r ->
  ~ In 47%Z (dotted (ts ++ [b]) ++ r) -> ~ In 93%Z (dotted (ts ++ [b]) ++ r) -> ~ In 58%Z (dotted (ts ++ [b]) ++ r) ->
  short_text (dotted (ts ++ [b]) ++ r) ->
  str_parseip af (dotted (ts ++ [b]) ++ r) = Ok (mkp (if af then Own else Null) None None (dotted (ts ++ [b]) ++ r)).
Proof. exact parse_bad_part. Qed.
Print Assumptions C85_bad_part_refused.

(* "10.256.3", "10.-1" and "10.-.3" *)
Example C85_ex_bad : bad_part [50; 53; 54]%Z /\ bad_part [45; 49]%Z /\ bad_part [45]%Z /\
  str_parseip true [49; 48; 46; 45; 46; 51]%Z = Ok (mkp Own None None [49; 48; 46; 45; 46; 51]%Z).
Proof.
  split; [apply (BHigh _ 256); [apply (Lit10 50 [53; 54]%Z); [lia|repeat constructor; unfold dig; lia]|lia|reflexivity || (vm_compute; discriminate)]|].
  split; [apply (BNeg [49]%Z 1); [apply (Lit10 49 []); [lia|constructor]|lia|vm_compute; discriminate]|].
  split; [apply BSign; auto|reflexivity].
Qed.

(* A minus sign before the port is accepted: the number stored is negative. *)
Theorem C85_negative_port_refuted : forall host port p, no_number host -> ~ In 58%Z host -> 7 <= length host -> port_text port p ->
  ~ In 47%Z (host ++ 58%Z :: 45%Z :: port) -> ~ In 93%Z (host ++ 58%Z :: 45%Z :: port) -> short_text (host ++ 58%Z :: 45%Z :: port) ->
  str_parseip true (host ++ 58%Z :: 45%Z :: port) = Ok (mkp (Copied true host) None (Some (- p)%Z) (host ++ 58%Z :: 45%Z :: port)).
Proof. exact parse_minus_port. Qed.
Print Assumptions C85_negative_port_refuted.

(* ---- C86 ---- *)
Theorem C86_path_partial : forall d s1 c s f e,
  slashes_only s1 -> component c -> slashes_only s -> component f -> extension f e ->
  pathinfo (d ++ s1 ++ c ++ s ++ f) = (mkf (d ++ s1 ++ c) c f e, d ++ s1 ++ c ++ s ++ f).
Proof. exact pathinfo_deep. Qed.
Print Assumptions C86_path_partial.

Theorem C86_two_components : forall c s f e, component c -> slashes_only s -> component f -> extension f e ->
  pathinfo (c ++ s ++ f) = (mkf c c f e, c ++ s ++ f).
Proof. exact pathinfo_shallow. Qed.
Print Assumptions C86_two_components.

Theorem C86_in_root : forall f e, component f -> extension f e ->
  pathinfo (47%Z :: f) = (mkf [47%Z] [47%Z] f e, 47%Z :: f).
Proof. exact pathinfo_root. Qed.
Print Assumptions C86_in_root.

(* "/a/b.c" *)
Example C86_ex : pathinfo [47; 97; 47; 98; 46; 99]%Z =
  (mkf [47; 97]%Z [97%Z] [98; 46; 99]%Z (Some [99%Z]), [47; 97; 47; 98; 46; 99]%Z).
Proof. reflexivity. Qed.

(* A file without directory is reported as its own directory. *)
Theorem C86_no_directory_refuted : forall f e, component f -> extension f e -> pathinfo f = (mkf f f f e, f).
Proof. exact pathinfo_alone. Qed.
Print Assumptions C86_no_directory_refuted.

(* A path that ends in slashes is shortened in the caller's memory. *)
Theorem C86_trailing_slash_refuted : forall d s f t, ends_plain d -> slashes_only s -> component f -> slashes_only t ->
  f_dirname (fst (pathinfo (d ++ s ++ f ++ t))) = d /\
  f_filename (fst (pathinfo (d ++ s ++ f ++ t))) = f /\
  snd (pathinfo (d ++ s ++ f ++ t)) = d ++ s ++ f.
Proof. exact pathinfo_trailing. Qed.
Print Assumptions C86_trailing_slash_refuted.
