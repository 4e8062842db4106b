(* Property theorems for URI parsing. *)
From Verif Require Import Base StrModel StrProofs UriModel UriProofs.

(* any text at all: no byte outside it is read, no range underflows *)
Theorem C55_stays_inside str : exists u, parse str = Ok u.
Proof. exact (parse_ok str). Qed.
(* every choice of components, any lengths: exactly these components come back *)
Theorem C55_components p : wf_parts p -> parse (render p) = Ok (result p).
Proof. exact (parse_render p). Qed.
Theorem C55_public_call_partial hostname p : wf_parts p -> short (c_scheme p) -> short (c_host p) -> accepted hostname p ->
  exists t, parse_uri hostname (render p) = Ok (Some (result p, t)) /\ scheme_type (Some (c_scheme p)) = Ok t.
Proof. exact (uri_accepted hostname p). Qed.
(* hosts without a dot (localhost, [::1]) are refused unless they are the machine's own name *)
Theorem C55_dotless_host_refuted hostname p : wf_parts p -> short (c_host p) -> ~ accepted hostname p -> parse_uri hostname (render p) = Ok None.
Proof. exact (uri_dotless hostname p). Qed.
(* any fragment of "http,tcp,ws,ftp" counts as a TCP scheme *)
Theorem C55_scheme_fragment_refuted s i : occurs s s_tcp i -> scheme_type (Some s) = Ok TTcp.
Proof. exact (fragment_is_tcp s i). Qed.
Theorem C55_port_junk_refuted : exists u, parse junk_port = Ok u /\ urej u = false /\ uport u = 8%Z /\ uhost u = Some [97; 46; 98]%Z.
Proof. exact port_junk. Qed.

(* https://u:p@a.b:80/x?q#f *)
Definition ex : parts := {| c_scheme := [104;116;116;112;115]; c_user := Some ([117], Some [112]); c_host := [97;46;98]; c_port := Some [56;48]; c_path := [47;120]; c_query := Some [113]; c_frag := Some [102] |}%Z.
Example C55_ex : parse_uri [] (render ex) = Ok (Some (result ex, TTls)).
Proof. vm_compute. reflexivity. Qed.
Ltac inlist := repeat match goal with H : In _ _ |- _ => cbn in H | H : _ \/ _ |- _ => destruct H | H : False |- _ => destruct H end; try congruence.
Example C55_ex_wf : wf_parts ex.
Proof.
  unfold wf_parts, ex, free, delims, letter, digit. cbn -[In Z.le].
  repeat match goal with |- _ /\ _ => split end; try discriminate; try (intros c C D; inlist; fail); try reflexivity;
    repeat (apply Forall_cons; [first [lia | cbn; lia]|]); try apply Forall_nil; try lia.
Qed.
(* ftp://[::1] *)
Definition ex6 : parts := {| c_scheme := [102;116;112]; c_user := None; c_host := [91;58;58;49;93]; c_port := None; c_path := []; c_query := None; c_frag := None |}%Z.
Example C55_ex6 : parse (render ex6) = Ok (result ex6) /\ parse_uri [] (render ex6) = Ok None.
Proof. vm_compute. auto. Qed.

Print Assumptions C55_stays_inside.
Print Assumptions C55_components.
Print Assumptions C55_public_call_partial.
Print Assumptions C55_dotless_host_refuted.
Print Assumptions C55_scheme_fragment_refuted.
Print Assumptions C55_port_junk_refuted.
