(* Claims C124 and C125. *)
From Verif Require Import Base WnModel WnProofs WnProofs2 WnProofs3.

Theorem C124_directory lead s d seps name tail : ~ has_drive s -> s <> [] -> nth_error s 0 <> Some 92%Z ->
  dir_parts (marks lead None s) d seps name tail -> dir_of lead s = Ok (Some (dir_answer d seps name)).
Proof. exact (fun H => dir_plain lead s d seps name tail (no_drive s H)). Qed.
Theorem C124_every_path_has_parts ms : exists d seps name tail, dir_parts ms d seps name tail.
Proof. exact (parts_exist ms). Qed.
Theorem C124_drive lead c r d seps name tail : letter c -> r <> [] ->
  dir_parts (marks lead (Some 58%Z) r) d seps name tail ->
  dirname lead (c :: 58%Z :: r) = Ok (c :: 58%Z :: dir_answer d seps name, Some 2) /\
  dir_of lead (c :: 58%Z :: r) = Ok (Some (dir_answer d seps name)).
Proof. exact (fun H => dir_drive lead c r d seps name tail (proj2 (alpha_letter c) H)). Qed.
Theorem C124_leading_backslash_refuted lead s d seps name tail : nth_error s 0 = Some 92%Z ->
  dir_parts (marks lead None s) d seps name tail ->
  dir_of lead s = match d with [] => UB | _ => Ok (Some (map fst d)) end.
Proof. exact (dir_backslash lead s d seps name tail). Qed.
Theorem C124_drive_alone_refuted lead c : letter c -> dir_of lead [c; 58%Z] = Ok (Some []).
Proof. exact (fun H => dir_drive_alone lead c (proj2 (alpha_letter c) H)). Qed.
Theorem C124_empty lead : dir_of lead [] = Ok None.
Proof. exact (dir_empty lead). Qed.

Theorem C125_last_name s pre name tail : plain s -> base_parts s pre name tail -> basename bytes s = Ok name.
Proof. exact (base_is s pre name tail). Qed.
Theorem C125_has_a_last_name s : plain s -> exists pre name tail, base_parts s pre name tail /\ basename bytes s = Ok name.
Proof. exact (base_plain s). Qed.
(* characters of several bytes, among whose bytes there may be separators *)
Theorem C125_characters mb s pre name tail : decodes mb s -> clear s -> parts mark s pre name tail -> basename mb (concat s) = Ok (concat name).
Proof. exact (base_chars_is mb s pre name tail). Qed.
Theorem C125_drive (x : Z) r pre name tail : sep x = false -> plain r -> base_parts r pre name tail ->
  basename bytes (x :: 58%Z :: r) = Ok (match name with [] => [x] | _ => name end).
Proof. exact (base_colon x r pre name tail). Qed.
Theorem C125_returns mb s : (forall l n, mb l = Some n -> n <= length l) -> exists r, basename mb s = Ok r.
Proof. exact (base_returns mb s). Qed.
Theorem C125_stream_cut_refuted (x : Z) name : sep x = false -> plain name -> no_sep name -> name <> [] ->
  basename bytes (47%Z :: x :: 58%Z :: name) = Ok name /\ base_parts (47%Z :: x :: 58%Z :: name) [47%Z] (x :: 58%Z :: name) [].
Proof. exact (base_stream x name). Qed.

Definition no_lead : Z -> bool := fun _ => false.
(* "a/b\c\" , "c:\x\y", "\a\b", "ab" *)
Example C124_ex : dir_of no_lead [97; 47; 98; 92; 99; 92]%Z = Ok (Some [97; 47; 98]%Z) /\
  dirname no_lead [99; 58; 92; 120; 92; 121]%Z = Ok ([99; 58; 92; 120]%Z, Some 2) /\
  dir_of no_lead [92; 97; 92; 98]%Z = Ok (Some [92; 97]%Z) /\ dir_of no_lead [97; 98]%Z = Ok (Some [46%Z]) /\
  dir_of no_lead [92; 97]%Z = UB /\ dir_of no_lead [47; 97]%Z = Ok (Some [92%Z]) /\
  dir_parts (marks no_lead None [97; 47; 98; 92; 99; 92]%Z) [(97, false); (47, true); (98, false)]%Z [(92%Z, true)] [(99%Z, false)] [(92%Z, true)].
Proof.
  repeat split; try reflexivity; try (repeat constructor; fail); try discriminate.
  right. exists [(97, false); (47, true)]%Z, (98%Z, false). auto.
Qed.
(* a character of two bytes whose second is a backslash *)
Definition two : list Z -> option nat := fun l => match l with 131%Z :: _ :: _ => Some 2 | _ => Some 1 end.
Example C125_chars_ex : basename two [97; 92; 131; 92; 98]%Z = Ok [131; 92; 98]%Z /\ decodes two [[97]; [92]; [131; 92]; [98]]%Z /\ parts mark [[97]; [92]; [131; 92]; [98]]%Z [[97]; [92]]%Z [[131; 92]; [98]]%Z [].
Proof. split; [reflexivity|]. split.
  - intros a c b E. destruct a as [|a0 [|a1 [|a2 [|a3 [|a4 ar]]]]]; injection E; intros; subst; try discriminate; cbn; auto.
  - split; [reflexivity|]. split; [right; exists [[97%Z]], [92%Z]; auto|]. split; [repeat constructor|]. split; [constructor|discriminate]. Qed.
Example C125_ex : basename bytes [97; 47; 98; 92; 99; 100; 92]%Z = Ok [99; 100]%Z /\ basename bytes [47; 92]%Z = Ok [] /\
  basename bytes [99; 58; 102]%Z = Ok [102%Z] /\ plain [97; 47; 98; 99; 58; 100]%Z.
Proof.
  repeat split; try reflexivity. intros pre x r E X A.
  assert (L := f_equal (@length Z) E). rewrite app_length in L. cbn [length] in L.
  destruct pre as [|a [|b [|c [|d [|e [|f pre]]]]]]; cbn [app] in E; try discriminate; try (cbn [length] in L; lia).
  injection E as <- <- <- <- <-. destruct A as [A|(l & c & A & S)]; [discriminate|].
  change [97%Z; 47%Z; 98%Z] with ([97%Z; 47%Z] ++ [98%Z]) in A. apply app_inj_tail in A. destruct A as (_ & <-). discriminate.
Qed.

Print Assumptions C124_directory.
Print Assumptions C124_every_path_has_parts.
Print Assumptions C124_drive.
Print Assumptions C124_leading_backslash_refuted.
Print Assumptions C124_drive_alone_refuted.
Print Assumptions C124_empty.
Print Assumptions C125_last_name.
Print Assumptions C125_characters.
Print Assumptions C125_has_a_last_name.
Print Assumptions C125_drive.
Print Assumptions C125_returns.
Print Assumptions C125_stream_cut_refuted.
