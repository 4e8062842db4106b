(* Property theorems for the other forms of URIs and for those refused. *)
From Verif Require Import Base StrModel StrProofs UriModel UriProofs UriProofs2.

(* any text: no component has a control byte, the port fits in 16 bits *)
Theorem C103_clean str u : parse str = Ok u -> fine u.
Proof. exact (every_result str u). Qed.
(* scheme://host:port… with a port too long, above 65535, negative or no number *)
Theorem C103_bad_port hostname sc h d tl : sc <> [] -> Forall letter sc -> h <> [] -> free (64%Z :: delims) h -> free (64%Z :: 58%Z :: 93%Z :: delims) d ->
  match tl with [] => True | c :: _ => In c delims end -> plain (sc ++ [58; 47; 47]%Z ++ h ++ 58%Z :: d ++ tl) -> bad_port d ->
  parse_uri hostname (sc ++ [58; 47; 47]%Z ++ h ++ 58%Z :: d ++ tl) = Ok None.
Proof. exact (bad_port_refused hostname sc h d tl). Qed.
(* //host:port/path?query#fragment and host:port/path?query#fragment *)
Theorem C103_two_slashes h d path q f : let str := [47; 47]%Z ++ h ++ 58%Z :: d ++ rest_of path q f in plain str ->
  h <> [] -> free (64%Z :: 58%Z :: delims) h -> d <> [] -> length d <= 5 -> Forall digit d -> (value 0 d <= 65535)%Z ->
  (match path with [] => q = None /\ f = None | c :: _ => c = 47%Z end) -> free [63; 35]%Z path -> match q with None => True | Some q => free [35%Z] q end ->
  parse str = Ok (with_tail (base h (value 0 d)) path q f).
Proof. exact (parse_relative h d path q f). Qed.
Theorem C103_host_port h d path q f : let str := h ++ 58%Z :: d ++ rest_of path q f in plain str ->
  h <> [] -> free (64%Z :: 58%Z :: delims) h -> d <> [] -> length d <= 5 -> Forall digit d -> (value 0 d <= 65535)%Z ->
  (match path with [] => q = None /\ f = None | c :: _ => c = 47%Z end) -> free [63; 35]%Z path -> match q with None => True | Some q => free [35%Z] q end ->
  parse str = Ok (with_tail (base h (value 0 d)) path q f).
Proof. exact (parse_plain h d path q f). Qed.
(* scheme: alone, refused by the public call as there is no host *)
Theorem C103_scheme_only hostname sc : sc <> [] -> Forall letter sc ->
  parse (sc ++ [58%Z]) = Ok (set_scheme sc uri0) /\ parse_uri hostname (sc ++ [58%Z]) = Ok None.
Proof. exact (scheme_only_refused hostname sc). Qed.
(* file:///path and file:///c:path, file in any case *)
Theorem C103_file sc path q f : map lower sc = file_ -> plain (sc ++ [58; 47; 47]%Z ++ rest_of (47%Z :: path) q f) ->
  nth_error (rest_of path q f) 1 <> Some 58%Z -> free [63; 35]%Z path -> match q with None => True | Some q => free [35%Z] q end ->
  parse (sc ++ [58; 47; 47]%Z ++ rest_of (47%Z :: path) q f) = Ok (with_tail (set_scheme sc uri0) (47%Z :: path) q f).
Proof. exact (parse_file_path sc path q f). Qed.
Theorem C103_file_drive sc x path q f : map lower sc = file_ -> plain (sc ++ [58; 47; 47; 47]%Z ++ rest_of (x :: 58%Z :: path) q f) ->
  free [63; 35]%Z (x :: 58%Z :: path) -> match q with None => True | Some q => free [35%Z] q end ->
  parse (sc ++ [58; 47; 47; 47]%Z ++ rest_of (x :: 58%Z :: path) q f) = Ok (with_tail (set_scheme sc uri0) (x :: 58%Z :: path) q f).
Proof. exact (parse_file_drive sc x path q f). Qed.
(* a text without a colon that does not begin with two slashes is a path *)
Theorem C103_path_alone hostname path q f : let str := rest_of path q f in plain str -> str <> [] -> free [58%Z] str -> (forall r, str <> 47%Z :: 47%Z :: r) ->
  free [63; 35]%Z path -> match q with None => True | Some q => free [35%Z] q end ->
  parse str = Ok (with_tail uri0 path q f) /\ parse_uri hostname str = Ok None.
Proof. exact (path_alone hostname path q f). Qed.
(* which transport a scheme gives *)
Theorem C103_transport s : short s -> exists t, scheme_type (Some s) = Ok t /\ transport_of s t.
Proof. exact (transport_exact s). Qed.

(* http://a.b:99999/x, http://a.b:-5, http://a.b:x *)
Example C103_ex_bad : bad_port [57;57;57;57;57]%Z /\ bad_port [45;53]%Z /\ bad_port [120]%Z /\
  parse_uri [] ([104;116;116;112] ++ [58;47;47] ++ [97;46;98] ++ 58 :: [57;57;57;57;57] ++ [47;120])%Z = Ok None.
Proof.
  split; [right; left|split; [right; right; left; exists [53]%Z|split; [right; right; right; exists 120%Z, []|vm_compute; reflexivity]]].
  - split; [discriminate|]. split; [repeat constructor; unfold digit; lia | vm_compute; reflexivity].
  - split; [reflexivity|]. split; [repeat constructor; unfold digit; lia | vm_compute; reflexivity].
  - split; [reflexivity|]. split; [unfold digit; lia|]. split; [reflexivity|]. split; discriminate.
Qed.
(* a.b:80/x?q *)
Example C103_ex_host : parse ([97;46;98] ++ 58 :: [56;48] ++ rest_of [47;120] (Some [113]) None)%Z = Ok (with_tail (base [97;46;98] 80) [47;120] (Some [113]) None)%Z.
Proof. vm_compute. reflexivity. Qed.
(* FILE:///c:/x *)
Example C103_ex_drive : map lower [70;73;76;69]%Z = file_ /\
  parse ([70;73;76;69] ++ [58;47;47;47] ++ rest_of [99;58;47;120] None None)%Z = Ok (with_tail (set_scheme [70;73;76;69] uri0) [99;58;47;120] None None)%Z.
Proof. vm_compute. auto. Qed.
(* "https" and "udp" *)
Example C103_ex_transport : scheme_type (Some [104;116;116;112;115]%Z) = Ok TTls /\ scheme_type (Some [117;100;112]%Z) = Ok TUdp.
Proof. vm_compute. auto. Qed.

Print Assumptions C103_clean.
Print Assumptions C103_bad_port.
Print Assumptions C103_two_slashes.
Print Assumptions C103_host_port.
Print Assumptions C103_scheme_only.
Print Assumptions C103_file.
Print Assumptions C103_file_drive.
Print Assumptions C103_transport.
(* /a.b?q *)
Example C103_ex_path : parse (rest_of [47;97;46;98] (Some [113]) None)%Z = Ok (with_tail uri0 [47;97;46;98] (Some [113]) None)%Z.
Proof. vm_compute. reflexivity. Qed.
