(* Errors of the TLS library, and certificates as text: async_tls.c 624-656 (x509_str), 680-687 (events_ssl_error). *)
From Verif Require Import Base.
Local Open Scope Z_scope.

(* -- events_ssl_error --
   The TLS library keeps the codes (not 0) of errors of a thread, oldest first, at most [cap] of them (15); when there are
   more, the oldest are dropped.  ERR_get_error takes the oldest, 0 if there is none.  ERR_error_string writes the text of a
   code, cut to 255 bytes, and a zero byte.  [size]: MAXHOSTNAMELEN (64 on Linux, 256 on Windows and BSD);
   [len]: length of a code's text. *)
Definition push (cap : nat) (q : list Z) (e : Z) : list Z := if Nat.ltb (length q) cap then q ++ [e] else tl q ++ [e].
Definition get_error (q : list Z) : Z * list Z := match q with [] => (0, []) | e :: r => (e, r) end.

Definition ssl_error (size : nat) (len : Z -> nat) (q : list Z) : outcome (option Z * list Z) :=
  let '(e1, q1) := get_error q in
  if e1 =? 0 then Ok (None, q1)
  else
    let '(e2, q2) := get_error q1 in
    if Nat.ltb (Nat.min 255 (len e2)) size then Ok (Some e2, q2) else UB.

(* calls that fail with errors, and reports; the codes reported *)
Inductive op := Fail (es : list Z) | Report.
Fixpoint run (cap size : nat) (len : Z -> nat) (l : list op) (q : list Z) (out : list Z) : outcome (list Z * list Z) :=
  match l with
  | [] => Ok (q, out)
  | Fail es :: r => run cap size len r (fold_left (push cap) es q) out
  | Report :: r =>
    do x <- ssl_error size len q;
    run cap size len r (snd x) (match fst x with Some e => out ++ [e] | None => out end)
  end.

(* -- x509_str --
   A memory BIO: a block, as many of its bytes in use.  Writing (BIO's mem_write, BUF_MEM_grow_clean): if the block is too
   small it becomes (n+3)/3*4 bytes for n bytes; new bytes that are not written are what the allocator left there ([fill]:
   how often the block was enlarged before, position). *)
Record bio := mkBio { block : list Z; inuse : nat; grown : nat }.
Definition write (fill : nat -> nat -> Z) (b : bio) (c : list Z) : bio :=
  let n := (inuse b + length c)%nat in
  if Nat.leb n (length (block b)) then mkBio (firstn (inuse b) (block b) ++ c ++ skipn n (block b)) n (grown b)
  else mkBio (firstn (inuse b) (block b) ++ c ++ map (fill (grown b)) (seq n ((n + 3) / 3 * 4 - n))) n (S (grown b)).
Definition written (fill : nat -> nat -> Z) (cs : list (list Z)) : bio := fold_left (write fill) cs (mkBio [] 0 0).

(* str_dup: up to the first zero byte; none in the block: undefined *)
Fixpoint upto_zero (l : list Z) : outcome (list Z) :=
  match l with [] => UB | c :: r => if c =? 0 then Ok [] else do x <- upto_zero r; Ok (c :: x) end.

(* bio_new, pem: whether BIO_new and PEM_write_bio_X509 succeed; details: what X509_print wrote before it ended or failed
   (nothing if show_details is not set); text: what PEM_write_bio_X509 writes *)
Definition x509_str (fill : nat -> nat -> Z) (cert bio_new pem : bool) (details text : list (list Z)) : outcome (option (list Z)) :=
  if negb cert || negb bio_new then Ok None
  else if pem then do s <- upto_zero (block (written fill (details ++ text))); Ok (Some s)
  else Ok None.
