(* C190, C191: keys and certificates. *)
From Coq Require Import ZArith List Bool Arith.
From Verif Require Import Base PkModel PkProofs PkProofs2 PkProofs3 PkProofs4 PkProofs5.
Import ListNotations.
Local Open Scope nat_scope.

(* C190: whatever OpenSSL answers (3.0 or later): a caller that uses only what it has, and releases what rsa_pkey, x509_self and
   x509_self_req gave it and nothing else, never touches anything released; when its scope has ended, what is left is what it has not
   released, and the keys of the certificates among that *)
Theorem C190_accounts_partial : forall ok mem l sts,
  careful [] l = Some sts -> (forall t, mem t = true) \/ Forall no_export l ->
  exists s env h, run false ok mem start [] l = Ok (s, env) /\ leave (heap s) (pend s) = Ok h /\
    forall i, live h i <-> owned env sts i \/ exists j o, owned env sts j /\ nth_error h j = Some o /\ pub o = Some i.
Proof. exact careful_ends. Qed.
Print Assumptions C190_accounts_partial.

Theorem C190_nothing_left_partial : forall ok mem l sts,
  careful [] l = Some sts -> (forall t, mem t = true) \/ Forall no_export l -> (forall v k, nth_error sts v <> Some (Own k)) ->
  exists s env h, run false ok mem start [] l = Ok (s, env) /\ leave (heap s) (pend s) = Ok h /\ forall i, ~ live h i.
Proof. exact nothing_left. Qed.
Print Assumptions C190_nothing_left_partial.

(* a key that is given is new and complete, and has at least 512 bits *)
Theorem C190_key : forall ok mem s env sts bits, reached ok mem s env sts ->
  exists r s', rsa_pkey false ok mem s bits = Ok (r, s') /\
    match r with Some i => (512 <= bits)%Z /\ a_key s' i /\ ~ live (heap s) i | None => True end.
Proof. exact r_rsa. Qed.
Print Assumptions C190_key.

Theorem C190_short : forall ok mem s env sts old bits, reached ok mem s env sts -> (bits < 512)%Z ->
  exists s', rsa_pkey old ok mem s bits = Ok (None, s').
Proof. exact r_small. Qed.
Print Assumptions C190_short.

(* with OpenSSL 1.1.1 a key that could not be made is released twice *)
Theorem C190_twice_refuted : forall ok mem s env sts bits, reached ok mem s env sts -> mem (tick s) = true -> (512 <= bits)%Z ->
  ok (1 + tick s) = true -> ok (2 + tick s) = true -> ok (3 + tick s) = true -> ok (4 + tick s) = false ->
  rsa_pkey true ok mem s bits = UB.
Proof. exact r_twice. Qed.
Print Assumptions C190_twice_refuted.

(* if there was no memory for the key of x509_self_export but there is afterwards, the key that is made is nobody's *)
Theorem C190_leak_refuted : forall ok mem s env sts host alt now, reached ok mem s env sts -> mem (tick s) = false ->
  ok (1 + tick s) = true -> ok (2 + tick s) = true -> ok (3 + tick s) = true -> ok (4 + tick s) = true ->
  exists s' i, x509_self_export false ok mem s host alt now = Ok (false, s') /\ live (heap s') i /\ ~ live (heap s) i /\ pend s' = pend s.
Proof. exact r_leak. Qed.
Print Assumptions C190_leak_refuted.

(* with OpenSSL 1.1.1 x509_pkey_write of the key NULL, as rsa_pkey may give it *)
Theorem C190_write_null_refuted : forall ok mem s env sts w, reached ok mem s env sts -> usable sts w false = true -> ok (tick s) = true ->
  create_self_ex true ok mem s None (nth w env None) = UB.
Proof. exact r_write_null. Qed.
Print Assumptions C190_write_null_refuted.

(* what has been released is not to be used: freeing it again, writing it or making a certificate of it is undefined *)
Theorem C190_gone : forall ok mem s i, i < length (heap s) -> ~ live (heap s) i ->
  free s (Some i) = UB /\
  (forall old c, create_self_ex old ok mem s (Some i) c = UB) /\
  (forall old p, (forall j, p = Some j -> live (heap s) j) -> create_self_ex old ok mem s p (Some i) = UB) /\
  forall c g d, ok (tick s) = true -> x509_self ok mem s (Some i) c g d = UB /\
    forall t n, x509_self_req ok mem s (Some i) c g d (Some t) n = UB.
Proof. exact r_gone. Qed.
Print Assumptions C190_gone.

(* C191 *)
Theorem C191_self : forall ok mem s i c g d,
  a_key s i -> country_ok c -> name_ok g -> name_ok d -> ok (tick s) = true -> ok (S (tick s)) = true ->
  gives (x509_self ok mem s (Some i) c g d) i (mkC 0 1 0 31536000 (three c g d) (three c g d) [] true).
Proof. exact self_doc. Qed.
Print Assumptions C191_self.

(* b: which of the seven extensions OpenSSL makes; the certificate is given and signed whichever these are *)
Theorem C191_request_refuted : forall ok mem s i c g d t n b,
  a_key s i -> country_ok c -> name_ok g -> name_ok d -> ok (tick s) = true -> ok (8 + tick s) = true ->
  map ok (seq (1 + tick s) 7) = b ->
  gives (x509_self_req ok mem s (Some i) c g d (Some t) n) i
    (mkC 2 n 0 31536000 (three c g d) (three c g d) (chosen (seven t) b) true).
Proof. exact req_doc. Qed.
Print Assumptions C191_request_refuted.

Theorem C191_long_domain_refuted : forall ok mem s i c g x t n,
  a_key s i -> country_ok c -> name_ok g -> 64 < length x -> (forall j, ok j = true) ->
  gives (x509_self_req ok mem s (Some i) c g (Some x) (Some t) n) i
    (mkC 2 n 0 31536000 (firstn 2 (three c g None)) (firstn 2 (three c g None)) (seven t) true).
Proof. exact req_long. Qed.
Print Assumptions C191_long_domain_refuted.

Theorem C191_no_key : forall ok mem s env sts c g d, reached ok mem s env sts ->
  (exists s', x509_self ok mem s None c g d = Ok (None, s')) /\
  forall t n, exists s', x509_self_req ok mem s None c g d (Some t) n = Ok (None, s').
Proof. exact r_null. Qed.
Print Assumptions C191_no_key.

(* tests: the example of the repository (examples/ssl/create-x509.c) and a run where the alternative names are refused *)
Definition yes (_ : nat) : bool := true.
Definition prog := [Rsa 4096; Self 0 None None None; Write 0 1; KeyFile; CertFile blank; Req 3 None None None [65%Z] 7; Free 5; Free 1; Free 0].
Example ex_careful : careful [] prog = Some [Gone; Gone; Null; Lent true; Lent false; Gone; Null; Null; Null].
Proof. reflexivity. Qed.
Example ex_run : match run false yes yes start [] prog with
  | Ok (s, _) => match leave (heap s) (pend s) with Ok h => forallb (fun o => refs o =? 0) h && (8 <? length h) | _ => false end
  | _ => false end = true.
Proof. vm_compute. reflexivity. Qed.
Example ex_kept : match run false yes yes start [] [Rsa 4096; Self 0 None None None; Free 0] with
  | Ok (s, _) => map (fun o => (kd o, refs o)) (heap s) | _ => [] end = [(Key, 1); (Ctx, 0); (Cert, 1)].
Proof. vm_compute. reflexivity. Qed.
Example ex_refused : match run false (fun t => negb (t =? 8)) yes start [] [Rsa 4096; Req 0 None None None [65%Z] 7] with
  | Ok (s, _) => map (fun o => exts (doc o)) (filter (fun o => match kd o with Cert => true | _ => false end) (heap s)) | _ => [] end
  = [[Basic; Usage; Constraints; ExtUsage; Ski; Netscape]].
Proof. vm_compute. reflexivity. Qed.
Example ex_reached : reached yes yes (match run false yes yes start [] [Rsa 4096] with Ok (s, _) => s | _ => start end) [Some 0] [Own true].
Proof. exists [Rsa 4096]. split; [reflexivity|]. split; [left; reflexivity|]. vm_compute. reflexivity. Qed.
Example ex_gone : run false yes yes start [] [Rsa 4096; Free 0; Self 0 None None None] = UB.
Proof. vm_compute. reflexivity. Qed.
