(* The memory of a parsed URI: arrays.c 1213-1216 (uri_dup), 1218-1251 (uri_free), 1282-1296 (the record), 1515-1530
   (parse_uri_ex).  What the text is parsed into is UriModel's [parse].  On every way through the parser the parts are
   set at most once and in this order: scheme, user, password, host, fragment, query, path; each is copied into a block
   of its own, and the copy's length is taken at once (1310, 1333, ...), which is undefined for the null pointer.
   Blocks are numbers, never given twice; [ans n] says whether the n-th request for memory succeeds.
   The number 1 + (position) of a type in data_types is kept as the transport; [None]: the type is still 0. *)
From Verif Require Import Base StrModel UriModel.

Record mem := mkMem { live : list nat; asked : nat }.

(* events_calloc; None: null *)
Definition alloc (ans : nat -> bool) (m : mem) : option nat * mem :=
  if ans (asked m) then (Some (asked m), mkMem (asked m :: live m) (S (asked m))) else (None, mkMem (live m) (S (asked m))).

(* events_free *)
Definition release (b : nat) (m : mem) : outcome mem :=
  if existsb (Nat.eqb b) (live m) then Ok (mkMem (filter (fun x => negb (Nat.eqb b x)) (live m)) (asked m)) else UB.

(* one part: 1309-1310 *)
Definition part (ans : nat -> bool) (x : option bytes) (m : mem) : outcome (option nat * mem) :=
  match x with
  | None => Ok (None, m)
  | Some _ => match alloc ans m with (Some b, m1) => Ok (Some b, m1) | (None, _) => UB end
  end.

(* the record: its block and those of its parts, in the order of uri_free: scheme, user, pass, host, path, query, fragment *)
Record urec := mkRec {
  r_blk : nat; r_scheme : option nat; r_user : option nat; r_pass : option nat; r_host : option nat; r_path : option nat;
  r_query : option nat; r_frag : option nat; r_rej : bool; r_type : option transport }.

(* 1282-1510 with autofree off; None: no memory for the record *)
Definition build (ans : nat -> bool) (u : uri) (m : mem) : outcome (option urec * mem) :=
  match alloc ans m with
  | (None, m1) => Ok (None, m1)
  | (Some b, m1) =>
    do a1 <- part ans (uscheme u) m1; do a2 <- part ans (uuser u) (snd a1); do a3 <- part ans (upass u) (snd a2);
    do a4 <- part ans (uhost u) (snd a3); do a5 <- part ans (ufrag u) (snd a4); do a6 <- part ans (uquery u) (snd a5);
    do a7 <- part ans (upath u) (snd a6);
    Ok (Some (mkRec b (fst a1) (fst a2) (fst a3) (fst a4) (fst a7) (fst a6) (fst a5) (urej u) None), snd a7)
  end.

Definition give_up (o : option nat) (m : mem) : outcome mem := match o with Some b => release b m | None => Ok m end.

(* 1218-1251; reading the type of a record that is not there any more is undefined.  The types of the four transports
   are those between DATA_GENERATOR and DATA_WATCH (arrays.h 79-85); TNone is -DATA_MAXCOUNTER; 0 is neither *)
Definition uri_free (r : urec) (m : mem) : outcome mem :=
  if existsb (Nat.eqb (r_blk r)) (live m) then
    if match r_type r with Some TNone => r_rej r | Some _ => true | None => false end then
      do m1 <- give_up (r_scheme r) m; do m2 <- give_up (r_user r) m1; do m3 <- give_up (r_pass r) m2;
      do m4 <- give_up (r_host r) m3; do m5 <- give_up (r_path r) m4; do m6 <- give_up (r_query r) m5;
      do m7 <- give_up (r_frag r) m6; release (r_blk r) m7
    else Ok m
  else UB.

(* 1515-1530; reading is_rejected through the null pointer is undefined *)
Definition parse_uri_ex (ans : nat -> bool) (hostname str : bytes) (m : mem) : outcome (option urec * mem) :=
  if length str =? 0 then Ok (None, m)
  else
    do u <- parse str; do o <- build ans u m;
    match fst o with
    | None => UB
    | Some r =>
      do refuse <- (if urej u then Ok true
                    else match uhost u with
                         | None => Ok true
                         | Some h => do dot <- str_has h [46%Z]; Ok (negb dot && negb (beq h hostname))
                         end);
      if (refuse : bool) then do m1 <- uri_free r (snd o); Ok (None, m1)
      else do t <- scheme_type (uscheme u);
           Ok (Some (mkRec (r_blk r) (r_scheme r) (r_user r) (r_pass r) (r_host r) (r_path r) (r_query r) (r_frag r) (r_rej r) (Some t)), snd o)
    end.
