(* Keys and certificates that are made, read and written: async_tls.c 127-145 (add_ext), 366-393 (create_self_ex), 395-416
   (generate_pkey_ex), 434-459 and 473-477 (thrd_worker_thread), 484-499 (rsa_pkey), 501-554 (x509_self_req), 556-594
   (x509_self), 596-607 (x509_self_export, x509_pkey_write), 609-622 (pkey_get), 658-678 (x509_get).
   The objects are those of OpenSSL, with counted references; X509_set_pubkey keeps a reference to the key.  [old]: OpenSSL
   1.1.1 and before, where EVP_PKEY_keygen that fails releases the key it was given, and where writing the key NULL reads
   through it; since 3.0 neither.  [ok] answers the calls that can fail, by the number of the call; [mem] whether EVP_PKEY_new
   gives a key.  Left out: the names of the files and what is in them (C168-C170), the messages, that the caller waits for a
   thread of the pool (C36), the job ssl_create_self (nothing asks for it) and gen_private_key 268-364 (nothing calls it).
   OpenSSL has memory for what it needs besides the objects named here. *)
From Coq Require Import ZArith List Bool Arith.
From Verif Require Import Base.
Import ListNotations.
Local Open Scope nat_scope.

Definition text := list Z.
Inductive attr := AC | AO | ACN.
Inductive ext := Basic | Usage | San (t : text) | Constraints | ExtUsage | Ski | Netscape.

(* version as stored (0 is the first, 2 the third), serial number, validity in seconds from now, subject, issuer *)
Record cert := mkC {
  ver : Z; serial : Z; from : Z; till : Z; subject : list (attr * text); issuer : list (attr * text); exts : list ext;
  signed : bool }.
Definition blank : cert := mkC 0 0 0 0 [] [] [] false.

Inductive kind := Key | Cert | Ctx | Bio | Ext.
(* made: a key with its numbers; pub: the key of a certificate *)
Record obj := mkO { kd : kind; refs : nat; made : bool; pub : option nat; doc : cert }.
Record st := mkS { heap : list obj; tick : nat; pend : list nat }.

Section S.
Variable old : bool.
Variable ok mem : nat -> bool.

Definition ask (s : st) : bool * st := (ok (tick s), mkS (heap s) (S (tick s)) (pend s)).
Definition put (s : st) (h : list obj) : st := mkS h (tick s) (pend s).

Definition new (k : kind) (s : st) : option nat * st :=
  let b := match k with Key => mem (tick s) | _ => ok (tick s) end in
  let s1 := mkS (heap s) (S (tick s)) (pend s) in
  if b then (Some (length (heap s)), put s1 (heap s ++ [mkO k 1 false None blank])) else (None, s1).

Definition with_refs (o : obj) (n : nat) : obj := mkO (kd o) n (made o) (pub o) (doc o).

Definition down (h : list obj) (i : nat) : outcome (list obj) :=
  do o <- rd h i;
  match refs o with
  | 0 => UB
  | S n => wr h i (with_refs o n)
  end.

(* EVP_PKEY_free, X509_free, ...: the last reference to a certificate gives up its key *)
Definition release (h : list obj) (i : nat) : outcome (list obj) :=
  do o <- rd h i;
  do h1 <- down h i;
  match refs o, pub o with
  | 1, Some j => down h1 j
  | _, _ => Ok h1
  end.

Definition free (s : st) (p : option nat) : outcome st :=
  match p with
  | None => Ok s
  | Some i => do h <- release (heap s) i; Ok (put s h)
  end.

(* using an object that is gone *)
Definition get (s : st) (i : nat) : outcome obj :=
  do o <- rd (heap s) i; match refs o with 0 => UB | _ => Ok o end.

Definition complete (s : st) (i : nat) : outcome st :=
  do o <- get s i;
  do h <- wr (heap s) i (mkO (kd o) (refs o) true (pub o) (doc o));
  Ok (put s h).

(* EVP_PKEY_keygen(ctx, &pkey), where pkey is the parameter of generate_pkey_ex: a key made for NULL is known only there *)
Definition keygen (s : st) (p : option nat) : outcome (bool * st) :=
  let (b, s1) := ask s in
  match p with
  | Some i => if b then do s2 <- complete s1 i; Ok (true, s2)
              else if old then do s2 <- free s1 (Some i); Ok (false, s2) else Ok (false, s1)
  | None => if b then Ok (true, put s1 (heap s1 ++ [mkO Key 1 true None blank])) else Ok (false, s1)
  end.

(* 395-416; RSA_MIN_MODULUS_BITS is 512 *)
Definition generate (s : st) (p : option nat) (bits : Z) : outcome (bool * st) :=
  let (c, s1) := new Ctx s in
  match c with
  | None => Ok (false, s1)
  | Some _ =>
      let (b1, s2) := ask s1 in
      let (b2, s3) := ask s2 in
      do x <- (if b1 && b2 && (512 <=? bits)%Z then keygen s3 p else Ok (false, s3));
      do s4 <- free (snd x) c;
      Ok (fst x, s4)
  end.

(* X509_NAME_add_entry_by_txt, whose answer is not looked at: OpenSSL's limits for these three, and the letters of a country *)
Definition printable (z : Z) : bool :=
  ((65 <=? z) && (z <=? 90) || (97 <=? z) && (z <=? 122) || (48 <=? z) && (z <=? 57)
   || existsb (Z.eqb z) [32; 39; 40; 41; 43; 44; 45; 46; 47; 58; 61; 63])%Z.
Definition fits (a : attr) (t : text) : bool :=
  match a with
  | AC => (length t =? 2) && forallb printable t
  | _ => (1 <=? length t) && (length t <=? 64)
  end.
Definition add_entry (n : list (attr * text)) (a : attr) (t : text) : list (attr * text) :=
  if fits a t then n ++ [(a, t)] else n.

Definition us : text := [85; 83]%Z.
Definition self : text := [115; 101; 108; 102; 83; 105; 103; 110; 101; 100]%Z.
Definition localhost : text := [108; 111; 99; 97; 108; 104; 111; 115; 116]%Z.
Definition dflt (o : option text) (d : text) : text := match o with Some t => t | None => d end.

Definition name (country org domain : option text) : list (attr * text) :=
  add_entry (add_entry (add_entry [] AC (dflt country us)) AO (dflt org self)) ACN (dflt domain localhost).

(* X509_set_pubkey, whose answer is not looked at *)
Definition set_pubkey (s : st) (c : nat) (p : option nat) : outcome st :=
  match p with
  | None => Ok s
  | Some i =>
      do k <- get s i;
      if made k then
        do h <- wr (heap s) i (with_refs k (S (refs k)));
        do o <- rd h c;
        do h1 <- wr h c (mkO (kd o) (refs o) (made o) (Some i) (doc o));
        Ok (put s h1)
      else Ok s
  end.

Definition set_doc (s : st) (c : nat) (d : cert) : outcome st :=
  do o <- get s c;
  do h <- wr (heap s) c (mkO (kd o) (refs o) (made o) (pub o) d);
  Ok (put s h).

(* 127-145: X509V3_EXT_conf_nid gives no extension, or one that is copied into the certificate and released *)
Definition add_ext (s : st) (c : nat) (x : ext) : outcome st :=
  let (e, s1) := new Ext s in
  match e with
  | None => Ok s1
  | Some _ =>
      do o <- get s1 c;
      let d := doc o in
      do s2 <- set_doc s1 c (mkC (ver d) (serial d) (from d) (till d) (subject d) (issuer d) (exts d ++ [x]) (signed d));
      free s2 e
  end.

Fixpoint add_exts (s : st) (c : nat) (l : list ext) : outcome st :=
  match l with
  | [] => Ok s
  | x :: r => do s1 <- add_ext s c x; add_exts s1 c r
  end.

(* X509_sign: fails without the numbers of a key *)
Definition sign (s : st) (c : nat) (p : option nat) : outcome (bool * st) :=
  match p with
  | None => Ok (false, s)
  | Some i =>
      do k <- get s i;
      let (b, s1) := ask s in
      if made k && b then
        do o <- get s1 c;
        let d := doc o in
        do s2 <- set_doc s1 c (mkC (ver d) (serial d) (from d) (till d) (subject d) (issuer d) (exts d) true);
        Ok (true, s2)
      else Ok (false, s1)
  end.

Definition certify (s : st) (p : option nat) (d : cert) (l : list ext) : outcome (option nat * st) :=
  let (c, s1) := new Cert s in
  match c with
  | None => Ok (None, s1)
  | Some i =>
      do s2 <- set_pubkey s1 i p;
      do s3 <- set_doc s2 i d;
      do s4 <- add_exts s3 i l;
      do x <- sign s4 i p;
      if fst x then Ok (Some i, snd x)
      else do s5 <- free (snd x) (Some i); Ok (None, s5)
  end.

(* 556-594 *)
Definition x509_self (s : st) (p : option nat) (country org domain : option text) : outcome (option nat * st) :=
  let n := name country org domain in
  certify s p (mkC 0 1 0 31536000 n n [] false) [].

(* 501-554; X509V3_EXT_conf_nid reads the text it is given *)
Definition x509_self_req (s : st) (p : option nat) (country org domain san : option text) (ser : Z)
  : outcome (option nat * st) :=
  let n := name country org domain in
  let d := mkC 2 ser 0 31536000 n n [] false in
  match san with
  | Some t => certify s p d [Basic; Usage; San t; Constraints; ExtUsage; Ski; Netscape]
  | None => match new Cert s with
            | (None, s1) => Ok (None, s1)
            | _ => UB
            end
  end.

(* a file that is opened, written or not, closed *)
Definition write (s : st) : outcome (bool * st) :=
  let (f, s1) := new Bio s in
  match f with
  | None => Ok (false, s1)
  | Some _ => let (b, s2) := ask s1 in do s3 <- free s2 f; Ok (b, s3)
  end.

(* 366-393 *)
Definition create_self_ex (s : st) (p c : option nat) : outcome (bool * st) :=
  do _ <- (match p with Some i => do _ <- get s i; Ok tt | None => Ok tt end);
  do _ <- (match c with Some i => do _ <- get s i; Ok tt | None => Ok tt end);
  do x <- write s;
  match p with
  | None => if old && (match fst (new Bio s) with Some _ => true | None => false end) then UB
            else do y <- write (snd x); Ok (false, snd y)
  | Some _ => do y <- write (snd x);
              Ok (fst x && fst y && (match c with Some _ => true | None => false end), snd y)
  end.

(* 446-459 with 596-601: both arguments are ignored.  host: the name of the host, alt: the text of 452, now: 453 *)
Definition x509_self_export (s : st) (host alt : text) (now : Z) : outcome (bool * st) :=
  let (p, s1) := new Key s in
  do x <- generate s1 p 4096;
  do y <- (if fst x then
             do c <- x509_self_req (snd x) p None None (Some host) (Some alt) now;
             match fst c with
             | Some i => do w <- create_self_ex (snd c) p (Some i);
                         do s2 <- free (snd w) (Some i); Ok (fst w, s2)
             | None => Ok (false, snd c)
             end
           else Ok x);
  do s3 <- free (snd y) p;
  Ok (fst y, s3).

(* 484-499 *)
Definition rsa_pkey (s : st) (bits : Z) : outcome (option nat * st) :=
  let (p, s1) := new Key s in
  match p with
  | None => Ok (None, s1)
  | Some _ =>
      do x <- generate s1 p bits;
      if fst x then Ok (p, snd x) else do s2 <- free (snd x) p; Ok (None, s2)
  end.

(* 609-622 and 658-678: the object is on the list of the deferred functions *)
Definition from_file (s : st) (o : obj) : outcome (option nat * st) :=
  let (f, s1) := new Bio s in
  match f with
  | None => Ok (None, s1)
  | Some _ =>
      let (b, s2) := ask s1 in
      let i := length (heap s2) in
      let s3 := if b then put s2 (heap s2 ++ [o]) else s2 in
      do s4 <- free s3 f;
      if b then Ok (Some i, mkS (heap s4) (tick s4) (i :: pend s4)) else Ok (None, s4)
  end.
Definition pkey_get (s : st) : outcome (option nat * st) := from_file s (mkO Key 1 true None blank).
Definition x509_get (s : st) (d : cert) : outcome (option nat * st) := from_file s (mkO Cert 1 false None d).

(* the deferred functions, when the task or the scope ends *)
Fixpoint leave (h : list obj) (l : list nat) : outcome (list obj) :=
  match l with
  | [] => Ok h
  | i :: r => do h1 <- release h i; leave h1 r
  end.

(* a caller: the v-th call gives the v-th value; None is NULL *)
Inductive op :=
| Rsa (bits : Z)
| Self (v : nat) (country org domain : option text)
| Req (v : nat) (country org domain : option text) (san : text) (ser : Z)
| Write (v w : nat)                      (* x509_pkey_write *)
| Export (host alt : text) (now : Z)     (* x509_self_export *)
| KeyFile
| CertFile (d : cert)
| Free (v : nat).                        (* EVP_PKEY_free, X509_free *)

Definition step (s : st) (env : list (option nat)) (o : op) : outcome (option nat * st) :=
  match o with
  | Rsa b => rsa_pkey s b
  | Self v c g d => x509_self s (nth v env None) c g d
  | Req v c g d t n => x509_self_req s (nth v env None) c g d (Some t) n
  | Write v w => do x <- create_self_ex s (nth v env None) (nth w env None); Ok (None, snd x)
  | Export h a n => do x <- x509_self_export s h a n; Ok (None, snd x)
  | KeyFile => pkey_get s
  | CertFile d => x509_get s d
  | Free v => do s1 <- free s (nth v env None); Ok (None, s1)
  end.

Fixpoint run (s : st) (env : list (option nat)) (l : list op) : outcome (st * list (option nat)) :=
  match l with
  | [] => Ok (s, env)
  | o :: r => do x <- step s env o; run (snd x) (env ++ [fst x]) r
  end.
End S.

Definition start : st := mkS [] 0 [].
