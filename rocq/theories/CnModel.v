(* The names of the certificate and key files, and the pair of files made for a server or client without one:
   async_tls.c 36-46 (the static buffers), 366-393 (create_self_ex), 446-459 (making the pair), 597-601
   (x509_self_export), 689-787 (the names, use_secure_client, use_certificate), 808-818 (events_hostname),
   897, 947, 1056 (the two files a server or client loads); async_io.c 658-660 and 670-672 (fs_exists, fs_touch).
   Unix: the separator is "/".  A text is the list of its bytes, without the 0 at the end.  [PM] is PATH_MAX and [MH]
   MAXHOSTNAMELEN.  Left out: the messages, the arguments behind the path of use_certificate (never read), what a
   certificate holds besides the number of the key it was made for, and that x509_self_export does its work in another
   thread (the caller waits for it).  [env] answers the system's calls, by the number of the call. *)
From Verif Require Import Base.
Open Scope Z_scope.
Open Scope list_scope.

Definition text := list Z.

Definition crt : text := [46; 99; 114; 116].          (* .crt *)
Definition csr_ : text := [46; 99; 115; 114].         (* .csr *)
Definition key_ : text := [46; 107; 101; 121].        (* .key *)
Definition local_ : text := [46; 108; 111; 99; 97; 108].   (* .local *)
Definition here : text := [46; 47].                   (* ./ *)
Definition up : text := [46; 46; 47].                 (* ../ *)
Definition localhost : text := [108; 111; 99; 97; 108; 104; 111; 115; 116].

(* what is in a file: the private key number n, a certificate for the key number n, nothing, or something else (among
   others: a file that was opened for writing but whose text could not be written, 372-375, 384-387) *)
Inductive content := Key (n : nat) | Cert (n : nat) | Empty | Other.

(* opening and writing a file: not opened, opened but not written, written *)
Inductive wres := WNo | WCut | WDone.

(* gethostname: None is an error, otherwise the name, of at most MAXHOSTNAMELEN-1 bytes; making key and certificate
   (generate_pkey_ex, x509_self_req): whether it succeeds; writing *)
Record env := mkEnv { gh : nat -> option text; gen : nat -> bool; wr_ : nat -> wres }.

(* the file a name leads to: "./x" is "x" *)
Fixpoint canon (p : text) : text :=
  match p with
  | 46 :: 47 :: r => canon r
  | _ => p
  end.

(* the statics, the files of the system (newest first), the number of the next call and of the next key *)
Record st := mkSt {
  host : text; dir : text; cert : text; csr : text; pkey : text; touch : text; ca : text; client : bool;
  files : list (text * content); tick : nat; nkey : nat }.

(* 38-46: all buffers empty *)
Definition fresh (fs : list (text * content)) (t k : nat) : st := mkSt [] [] [] [] [] [] [] false fs t k.

Definition teq (a b : text) : bool := if list_eq_dec Z.eq_dec a b then true else false.

Fixpoint look (p : text) (fs : list (text * content)) : option content :=
  match fs with
  | [] => None
  | (q, c) :: r => if teq (canon p) q then Some c else look p r
  end.

(* snprintf of a text into a buffer of n bytes, and whether it answers 0 *)
Definition put (n : nat) (t : text) : text := firstn (n - 1) t.
Definition zero (t : text) : bool := match t with [] => true | _ => false end.

Section S.
Variable PM MH : nat.
Variable e : env.

(* 808-818 *)
Definition hostname (s : st) : text * st :=
  match host s with
  | [] =>
      let h := match gh e (tick s) with Some n => n | None => put MH localhost end in
      (h, mkSt h (dir s) (cert s) (csr s) (pkey s) (touch s) (ca s) (client s) (files s) (S (tick s)) (nkey s))
  | h => (h, s)
  end.

(* 689-698; none of the four texts is empty, so that snprintf never answers 0 *)
Definition names_setup (s : st) : st :=
  let (n, s) := hostname s in
  match cert s with
  | [] => mkSt (host s) (dir s) (put (PM + MH + 4) (n ++ crt)) (put (PM + MH + 4) (n ++ csr_))
               (put (PM + MH + 4) (n ++ key_)) (put (PM + MH + 6) (n ++ local_)) (ca s) (client s) (files s) (tick s) (nkey s)
  | _ => s
  end.

(* 719-724, 755-760, 762-767 *)
Definition cert_file (s : st) : text * st :=
  let s1 := match cert s with [] => names_setup s | _ => s end in (cert s1, s1).
Definition csr_file (s : st) : text * st :=
  let s1 := match csr s with [] => names_setup s | _ => s end in (csr s1, s1).
Definition pkey_file (s : st) : text * st :=
  let s1 := match pkey s with [] => names_setup s | _ => s end in (pkey s1, s1).

(* 700-710; dflt: X509_get_default_cert_file() *)
Definition use_ca (dflt : text) (p : option text) (s : st) : st :=
  match ca s with
  | [] => mkSt (host s) (dir s) (cert s) (csr s) (pkey s) (touch s)
               (put (PM + MH + 4) (match p with None => dflt | Some t => t end)) (client s) (files s) (tick s) (nkey s)
  | _ => s
  end.

(* 712-717 *)
Definition ca_file (dflt : text) (s : st) : text * st :=
  let s1 := match ca s with [] => use_ca dflt None s | _ => s end in (ca s1, s1).

Definition set_dir (d : text) (s : st) : st :=
  mkSt (host s) d (cert s) (csr s) (pkey s) (touch s) (ca s) (client s) (files s) (tick s) (nkey s).
Definition set_touch (t : text) (s : st) : st :=
  mkSt (host s) (dir s) (cert s) (csr s) (pkey s) t (ca s) (client s) (files s) (tick s) (nkey s).
Definition set_files (f : list (text * content)) (s : st) : st :=
  mkSt (host s) (dir s) (cert s) (csr s) (pkey s) (touch s) (ca s) (client s) f (S (tick s)) (nkey s).

Definition or_up (p : option text) : text := match p with None => up | Some t => t end.

(* 726-734 *)
Definition cert_path (p : option text) (s : st) : text * st :=
  let s1 := match dir s with [] => set_dir (put PM (or_up p)) s | _ => s end in (dir s1, s1).

(* 736-753; if the path is the empty text, the first snprintf answers 0 and the names are not set *)
Definition default_file (p : option text) (s : st) : text * st :=
  let (n, s) := hostname s in
  let d := or_up p in
  let s1 := match dir s with
            | [] => let s2 := set_dir (put PM d) s in
                    if zero d then s2
                    else mkSt (host s2) (dir s2) (put (PM + MH + 4) (dir s2 ++ n ++ crt)) (put (PM + MH + 4) (dir s2 ++ n ++ csr_))
                              (put (PM + MH + 4) (dir s2 ++ n ++ key_)) (touch s2) (ca s2) (client s2) (files s2) (tick s2) (nkey s2)
            | _ => s
            end in
  match p with
  | None => let s2 := set_touch (put (PM + MH + 6) (n ++ local_)) s1 in (touch s2, s2)
  | Some _ => (cert s1, s1)
  end.

(* BIO_new_file(name, "w") and PEM_write_bio_... *)
Definition write (p : text) (c : content) (s : st) : bool * st :=
  match wr_ e (tick s) with
  | WNo => (false, set_files (files s) s)
  | WCut => (false, set_files ((canon p, Other) :: files s) s)
  | WDone => (true, set_files ((canon p, c) :: files s) s)
  end.

(* 446-459 and 366-393: a new key and its certificate; the key is written first, the certificate in any case *)
Definition export (s : st) : bool * st :=
  let k := nkey s in
  let s0 := mkSt (host s) (dir s) (cert s) (csr s) (pkey s) (touch s) (ca s) (client s) (files s) (S (tick s)) (S k) in
  if gen e (tick s) then
    let (_, s1) := hostname s0 in
    let (pk, s2) := pkey_file s1 in
    let (a, s3) := write pk (Key k) s2 in
    let (ct, s4) := cert_file s3 in
    let (b, s5) := write ct (Cert k) s4 in
    (a && b, s5)
  else (false, s0).

(* fs_touch: the file is there afterwards; what was in it stays.  Called for a file that was not there *)
Definition touch_file (p : text) (s : st) : st :=
  match wr_ e (tick s) with
  | WNo => set_files (files s) s
  | _ => match look p (files s) with
         | None => set_files ((canon p, Empty) :: files s) s
         | Some _ => set_files (files s) s
         end
  end.

Definition exists_ (p : text) (s : st) : bool := match look p (files s) with None => false | Some _ => true end.

(* 769-778 *)
Definition use_client (s : st) : st :=
  let (n, s) := hostname s in
  let s := mkSt (host s) (dir s) (cert s) (csr s) (pkey s) (put (PM + MH + 6) (here ++ n ++ local_)) (ca s) true (files s) (tick s) (nkey s) in
  if exists_ (touch s) s then s
  else let (_, s) := default_file (Some here) s in
       let (ok, s) := export s in
       if ok then touch_file (touch s) s else s.

(* 780-789 *)
Definition use_cert (p : option text) (s : st) : st :=
  match p with
  | None => let (t, s) := default_file None s in
            if exists_ t s then s
            else let (ok, s) := export s in if ok then touch_file (touch s) s else s
  | Some _ => snd (default_file p s)
  end.

(* what a program may do; [Again]: it ends and is started again in the same directory *)
Inductive op := HostName | CertFile | CsrFile | PkeyFile | CertPath (p : option text) | UseCert (p : option text) | UseClient
              | UseCa (p : option text) | CaFile | Export | Again.

Definition step (dflt : text) (o : op) (s : st) : st :=
  match o with
  | HostName => snd (hostname s)
  | CertFile => snd (cert_file s)
  | CsrFile => snd (csr_file s)
  | PkeyFile => snd (pkey_file s)
  | CertPath p => snd (cert_path p s)
  | UseCert p => use_cert p s
  | UseClient => use_client s
  | UseCa p => use_ca dflt p s
  | CaFile => snd (ca_file dflt s)
  | Export => snd (export s)
  | Again => fresh (files s) (tick s) (nkey s)
  end.

Fixpoint run (dflt : text) (os : list op) (s : st) : st :=
  match os with [] => s | o :: r => run dflt r (step dflt o s) end.

(* 897, 947: the pair of files a server loads: the certificate's and the key's contents *)
Definition load (s : st) : option content * option content :=
  let (c, s1) := cert_file s in
  let (k, s2) := pkey_file s1 in
  (look c (files s2), look k (files s2)).
End S.
