(* C168-C170: the names of the certificate and key files, and the pair made for a server or client that has none. *)
From Verif Require Import Base CnModel CnProofs CnProofs2 CnProofs3 CnProofs4 CnProofs5.
From Coq Require Import Lia.
Open Scope Z_scope.
Open Scope list_scope.

(* whatever was called before, in whatever order the three names are asked for: the same directory, the same host, the
   three endings, nothing cut off, and the same answers when asked again *)
Theorem C168_names : forall PM MH e dflt os fs t k, (3 < PM)%nat -> (10 <= MH)%nat -> hosts MH e ->
  let s := run PM MH e dflt os (fresh fs t k) in
  exists D h s1, place PM os D /\ (length D < PM)%nat /\ isname e h /\
    (forall a, asking PM MH e a s = (D ++ h ++ ending a, s1)) /\ (forall a, asking PM MH e a s1 = (D ++ h ++ ending a, s1)).
Proof. exact c168. Qed.
Print Assumptions C168_names.

(* the first use_certificate chooses the directory, and the names stay whatever is called afterwards *)
Theorem C169_stay_partial : forall PM MH e dflt pre p fs t k, (3 < PM)%nat -> (10 <= MH)%nat -> hosts MH e ->
  Forall quiet pre -> p <> Some [] ->
  exists h, isname e h /\ forall post, ~ In Again post ->
    let s := run PM MH e dflt (pre ++ UseCert p :: post) (fresh fs t k) in
    forall a, asking PM MH e a s = (chosen PM p ++ h ++ ending a, s).
Proof. exact c169_stay. Qed.
Print Assumptions C169_stay_partial.

(* the first use_ca_certificate chooses the file of trusted authorities *)
Theorem C169_ca_partial : forall PM MH e dflt pre p post fs t k, Forall caless pre -> ~ In Again post ->
  let d := match p with Some x => x | None => dflt end in
  d <> [] -> (length d < PM + MH + 4)%nat ->
  fst (ca_file PM MH dflt (run PM MH e dflt (pre ++ UseCa p :: post) (fresh fs t k))) = d.
Proof. exact c169_ca. Qed.
Print Assumptions C169_ca_partial.

(* after default_cert_path no use_certificate has an effect on the names: they never get a directory *)
Theorem C169_path_first_refuted : forall PM MH e dflt pre d post fs t k, (3 < PM)%nat -> (10 <= MH)%nat -> hosts MH e ->
  Forall quiet pre -> d <> Some [] -> ~ In Again post ->
  let s := run PM MH e dflt (pre ++ CertPath d :: post) (fresh fs t k) in
  exists h, isname e h /\ forall a, fst (asking PM MH e a s) = h ++ ending a.
Proof. exact c169_path_first. Qed.
Print Assumptions C169_path_first_refuted.

(* a name asked for before use_certificate is not the one asked for afterwards *)
Theorem C169_changed_refuted : forall PM MH e dflt p fs t k h, (3 < PM)%nat -> (10 <= MH)%nat -> hosts MH e -> p <> [] ->
  gh e t = Some h -> h <> [] -> forall a,
  let s0 := fresh fs t k in
  fst (asking PM MH e a s0) = h ++ ending a /\
  fst (asking PM MH e a (run PM MH e dflt [UseCert (Some p)] (snd (asking PM MH e a s0)))) = firstn (PM - 1) p ++ h ++ ending a.
Proof. exact c169_changed. Qed.
Print Assumptions C169_changed_refuted.

(* every program begins with use_certificate(NULL) and may do anything afterwards, is ended and started again any number of
   times: the files it loads are a certificate and its key *)
Theorem C170_servers_partial : forall PM MH e H, (3 < PM)%nat -> (10 <= MH)%nat -> H <> [] /\ (length H < MH)%nat -> fine e H ->
  forall dflt os fs t k l,
  look (H ++ [46; 108; 111; 99; 97; 108]) fs = None \/ pairof fs [46; 46; 47] H ->
  Forall (fun p => ~ In Again p) os -> ~ In Again l ->
  exists n, load PM MH e (run PM MH e dflt (flat_map (fun p => UseCert None :: p ++ [Again]) os ++ UseCert None :: l) (fresh fs t k)) =
    (Some (Cert n), Some (Key n)).
Proof. exact servers. Qed.
Print Assumptions C170_servers_partial.

(* the same of programs that begin with use_secure_client and never call use_certificate *)
Theorem C170_clients_partial : forall PM MH e H, (3 < PM)%nat -> (10 <= MH)%nat -> H <> [] /\ (length H < MH)%nat -> fine e H ->
  forall dflt os fs t k l,
  look (H ++ [46; 108; 111; 99; 97; 108]) fs = None \/ pairof fs [] H ->
  Forall (Forall client_ops) os -> Forall client_ops l ->
  exists n, load PM MH e (run PM MH e dflt (flat_map (fun p => UseClient :: p ++ [Again]) os ++ UseClient :: l) (fresh fs t k)) =
    (Some (Cert n), Some (Key n)).
Proof. exact clients. Qed.
Print Assumptions C170_clients_partial.

(* without use_certificate(NULL), use_secure_client and x509_self_export no file is written *)
Theorem C170_untouched_partial : forall PM MH e dflt os s, Forall still os -> files (run PM MH e dflt os s) = files s.
Proof. exact untouched. Qed.
Print Assumptions C170_untouched_partial.

(* a client's and a server's program in the same directory: the second finds the marker of the first but no files *)
Theorem C170_client_then_server_refuted :
  fine good h1 /\ load path_max 64 good (run path_max 64 good [] [UseClient; Again; UseCert None] (fresh [] 0 0)) = (None, None).
Proof. exact (conj good_fine client_then_server). Qed.
Print Assumptions C170_client_then_server_refuted.
Theorem C170_server_then_client_refuted :
  load path_max 64 good (run path_max 64 good [] [UseCert None; Again; UseClient] (fresh [] 0 0)) = (None, None).
Proof. exact server_then_client. Qed.
Print Assumptions C170_server_then_client_refuted.
(* the same program works the first time and not the second *)
Theorem C170_second_run_refuted :
  load path_max 64 good (run path_max 64 good [] [UseClient; UseCert None] (fresh [] 0 0)) = (Some (Cert 0), Some (Key 0)) /\
  load path_max 64 good (run path_max 64 good [] [UseClient; UseCert None; Again; UseClient; UseCert None] (fresh [] 0 0)) = (None, None).
Proof. exact both_twice. Qed.
Print Assumptions C170_second_run_refuted.
(* the program's own key and certificate are overwritten by use_secure_client *)
Theorem C170_overwritten_refuted : let d := [100; 47] in
  load path_max 64 good (run path_max 64 good [] [UseCert (Some d)] (fresh (own d) 0 0)) = (Some (Cert 7), Some (Key 7)) /\
  load path_max 64 good (run path_max 64 good [] [UseCert (Some d); UseClient] (fresh (own d) 0 0)) = (Some (Cert 0), Some (Key 0)).
Proof. exact overwritten. Qed.
Print Assumptions C170_overwritten_refuted.
(* use_certificate(NULL) overwrites a pair that is there already, if the marker is not *)
Theorem C170_replaced_refuted : let d := [46; 46; 47] in
  load path_max 64 good (run path_max 64 good [] [UseCert (Some d)] (fresh (own d) 0 0)) = (Some (Cert 7), Some (Key 7)) /\
  load path_max 64 good (run path_max 64 good [] [UseCert None] (fresh (own d) 0 0)) = (Some (Cert 0), Some (Key 0)).
Proof. exact replaced. Qed.
Print Assumptions C170_replaced_refuted.
(* and if the certificate cannot be written, a new key stays with the old certificate *)
Theorem C170_torn_refuted : let d := [46; 46; 47] in
  load path_max 64 half (run path_max 64 half [] [UseCert None] (fresh (own d) 0 0)) = (Some (Cert 7), Some (Key 0)).
Proof. exact torn. Qed.
Print Assumptions C170_torn_refuted.

(* starts at which the host has its name but making or writing key, certificate or marker may fail or be cut short, any
   number of them: they leave the marker only beside a pair, so that the next start, if its calls succeed, has one *)
Theorem C170_retry_partial : forall PM MH e H, (3 < PM)%nat -> (10 <= MH)%nat -> H <> [] /\ (length H < MH)%nat -> fine e H ->
  forall es dflt fs t k l,
  Forall (fun x => forall n, gh (fst (fst x)) n = Some H) es ->
  look (H ++ [46; 108; 111; 99; 97; 108]) fs = None \/ pairof fs [46; 46; 47] H -> ~ In Again l ->
  exists n, load PM MH e (run PM MH e dflt (UseCert None :: l) (fresh (starts PM MH es fs) t k)) = (Some (Cert n), Some (Key n)).
Proof. exact retry. Qed.
Print Assumptions C170_retry_partial.
(* a write that is cut short destroys the certificate that was there *)
Theorem C170_cut_refuted : let d := [46; 46; 47] in
  load path_max 64 cut (run path_max 64 cut [] [UseCert None] (fresh (own d) 0 0)) = (Some Other, Some (Key 0)).
Proof. exact cut_short. Qed.
Print Assumptions C170_cut_refuted.

(* tests *)
Example t_names : fst (cert_file path_max 64 good (fresh [] 0 0)) = [104; 46; 99; 114; 116].
Proof. vm_compute. reflexivity. Qed.
Example t_dir : fst (pkey_file path_max 64 good (run path_max 64 good [] [UseCert (Some [100; 47]); UseCert (Some [120; 47])] (fresh [] 0 0))) =
  [100; 47; 104; 46; 107; 101; 121].
Proof. vm_compute. reflexivity. Qed.
Example t_up : fst (csr_file path_max 64 good (run path_max 64 good [] [UseCert None] (fresh [] 0 0))) =
  [46; 46; 47; 104; 46; 99; 115; 114].
Proof. vm_compute. reflexivity. Qed.
Example t_empty : fst (cert_file path_max 64 good (run path_max 64 good [] [UseCert (Some [])] (fresh [] 0 0))) = [104; 46; 99; 114; 116].
Proof. vm_compute. reflexivity. Qed.
Example t_long : length (dir (run path_max 64 good [] [UseCert (Some (repeat 100 (Z.to_nat 5000)))] (fresh [] 0 0))) = Z.to_nat 4095.
Proof. vm_compute. reflexivity. Qed.
Example t_ca : fst (ca_file path_max 64 [99] (run path_max 64 good [99] [UseCa (Some [97]); UseCa (Some [98])] (fresh [] 0 0))) = [97].
Proof. vm_compute. reflexivity. Qed.
Example t_hosts : hosts 64 good.
Proof. intros n h K. injection K as <-. cbn. lia. Qed.
Example t_servers : exists n, load path_max 64 good
  (run path_max 64 good [] [UseCert None; UseClient; Export; Again; UseCert None; UseCert (Some [100; 47])] (fresh [] 0 0)) = (Some (Cert n), Some (Key n)).
Proof. eexists. vm_compute. reflexivity. Qed.
