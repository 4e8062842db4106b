(* URI parsing: arrays.c 1053-1064, 1107-1137, 1282-1546.  The text is the list [str] of its bytes before the
   NUL; positions are offsets into it.  Reading a byte beyond the NUL, or searching or copying a range that
   is not inside the text, is undefined.  Character classes are those of the C locale.  Both ways of
   allocating the parts (1321 etc.) give the same bytes and are not distinguished; allocation succeeds. *)
From Verif Require Import Base StrModel.

Record uri := { urej : bool; uport : Z; uscheme : option bytes; uuser : option bytes; upass : option bytes;
  uhost : option bytes; upath : option bytes; uquery : option bytes; ufrag : option bytes }.
Definition uri0 : uri := {| urej := false; uport := 0; uscheme := None; uuser := None; upass := None; uhost := None; upath := None; uquery := None; ufrag := None |}.
Definition set_rej u := {| urej := true; uport := uport u; uscheme := uscheme u; uuser := uuser u; upass := upass u; uhost := uhost u; upath := upath u; uquery := uquery u; ufrag := ufrag u |}.
Definition set_port p u := {| urej := urej u; uport := p; uscheme := uscheme u; uuser := uuser u; upass := upass u; uhost := uhost u; upath := upath u; uquery := uquery u; ufrag := ufrag u |}.
Definition set_scheme x u := {| urej := urej u; uport := uport u; uscheme := Some x; uuser := uuser u; upass := upass u; uhost := uhost u; upath := upath u; uquery := uquery u; ufrag := ufrag u |}.
Definition set_user x u := {| urej := urej u; uport := uport u; uscheme := uscheme u; uuser := Some x; upass := upass u; uhost := uhost u; upath := upath u; uquery := uquery u; ufrag := ufrag u |}.
Definition set_pass x u := {| urej := urej u; uport := uport u; uscheme := uscheme u; uuser := uuser u; upass := Some x; uhost := uhost u; upath := upath u; uquery := uquery u; ufrag := ufrag u |}.
Definition set_host x u := {| urej := urej u; uport := uport u; uscheme := uscheme u; uuser := uuser u; upass := upass u; uhost := Some x; upath := upath u; uquery := uquery u; ufrag := ufrag u |}.
Definition set_path x u := {| urej := urej u; uport := uport u; uscheme := uscheme u; uuser := uuser u; upass := upass u; uhost := uhost u; upath := Some x; uquery := uquery u; ufrag := ufrag u |}.
Definition set_query x u := {| urej := urej u; uport := uport u; uscheme := uscheme u; uuser := uuser u; upass := upass u; uhost := uhost u; upath := upath u; uquery := Some x; ufrag := ufrag u |}.
Definition set_frag x u := {| urej := urej u; uport := uport u; uscheme := uscheme u; uuser := uuser u; upass := upass u; uhost := uhost u; upath := upath u; uquery := uquery u; ufrag := Some x |}.

(* C locale *)
Definition dig (c : Z) : bool := (48 <=? c)%Z && (c <=? 57)%Z.
Definition alpha (c : Z) : bool := ((65 <=? c)%Z && (c <=? 90)%Z) || ((97 <=? c)%Z && (c <=? 122)%Z).
Definition cntrl (c : Z) : bool := (c <? 32)%Z || (c =? 127)%Z.
Definition lower (c : Z) : Z := if (65 <=? c)%Z && (c <=? 90)%Z then (c + 32)%Z else c.
Definition schemec (c : Z) : bool := alpha c || dig c || (c =? 43)%Z || (c =? 46)%Z || (c =? 45)%Z.

Fixpoint fnd (c : Z) (l : bytes) : option nat := match l with [] => None | x :: r => if (x =? c)%Z then Some 0 else option_map S (fnd c r) end.
Fixpoint rfnd (c : Z) (l : bytes) : option nat :=
  match l with [] => None | x :: r => match rfnd c r with Some i => Some (S i) | None => if (x =? c)%Z then Some 0 else None end end.
Fixpoint beq (a b : bytes) : bool := match a, b with [], [] => true | x :: r, y :: t => (x =? y)%Z && beq r t | _, _ => false end.

Section Parse.
Variable str : bytes.
Definition ue := length str.
Definition ch (k : nat) : outcome Z := rd (str ++ [0%Z]) k.
Definition range (s e : nat) : outcome bytes := if (e <? s) || (ue <? e) then UB else Ok (firstn (e - s) (skipn s str)).
(* memchr(s, c, e - s) and str_memrchr (1128-1137) *)
Definition mchr (c : Z) (s e : nat) : outcome (option nat) := do l <- range s e; Ok (option_map (Nat.add s) (fnd c l)).
Definition mrchr (c : Z) (s e : nat) : outcome (option nat) := do l <- range s e; Ok (option_map (Nat.add s) (rfnd c l)).
(* 1107-1114 *)
Fixpoint cspn (s e : nat) (chars : bytes) : outcome nat :=
  match chars with
  | [] => Ok e
  | c :: r => do p <- mchr c s e; cspn s (match p with Some q => q | None => e end) r
  end.
(* copy and 1116-1126 *)
Definition clean (l : bytes) : bytes := map (fun c => if cntrl c then 95%Z else c) l.
Definition dup (s e : nat) : outcome bytes := do l <- range s e; Ok (clean l).

(* 1480-1508 *)
Definition just_path (u : uri) (s : nat) : outcome uri :=
  do h <- mchr 35 s ue;
  do r1 <- (match h with
            | Some p => if S p <? ue then do f <- dup (S p) ue; Ok (set_frag f u, p) else Ok (u, p)
            | None => Ok (u, ue) end);
  let (u1, e1) := r1 in
  do q <- mchr 63 s e1;
  do r2 <- (match q with
            | Some p => if S p <? e1 then do f <- dup (S p) e1; Ok (set_query f u1, p) else Ok (u1, p)
            | None => Ok (u1, e1) end);
  let (u2, e2) := r2 in
  if (s <? e2) || (s =? ue) then do p <- dup s e2; Ok (set_path p u2) else Ok u2.

(* libc strtol base 10 on at most five characters: value and whether anything was converted *)
Fixpoint skip_sp (s : bytes) : bytes := match s with c :: r => if isspace c then skip_sp r else s | [] => [] end.
Fixpoint digits (s : bytes) : bytes := match s with c :: r => if dig c then c :: digits r else [] | [] => [] end.
Definition dec (ds : bytes) : Z := fold_left (fun v c => 10 * v + (c - 48))%Z ds 0%Z.
Definition strtol (s : bytes) : Z * bool :=
  let s1 := skip_sp s in
  match s1 with
  | 45%Z :: r => ((- dec (digits r))%Z, negb (length (digits r) =? 0))
  | 43%Z :: r => (dec (digits r), negb (length (digits r) =? 0))
  | _ => (dec (digits s1), negb (length (digits s1) =? 0))
  end.
(* port_buf is a C string: it stops at a NUL, of which the text has none *)
Definition port_of (s e : nat) : outcome (option Z) :=
  do l <- range s e; let (v, ok) := strtol l in Ok (if (0 <=? v)%Z && (v <=? 65535)%Z && ok then Some v else None).

(* 1405-1478 *)
Definition parse_host (u : uri) (s0 : nat) : outcome uri :=
  do e <- cspn s0 ue [47; 63; 35]%Z;
  do at_ <- mrchr 64 s0 e;
  do r <- (match at_ with
           | Some p =>
             do pp <- mchr 58 s0 p;
             do u1 <- (match pp with
                       | Some q => do a <- dup s0 q; do b <- dup (S q) p; Ok (set_pass b (set_user a u))
                       | None => do a <- dup s0 p; Ok (set_user a u) end);
             Ok (u1, S p)
           | None => Ok (u, s0) end);
  let (u1, s) := r in
  do v6 <- (if s <? ue then do c <- ch s; if (c =? 91)%Z then do d <- (match e with 0 => UB | S k => ch k end); Ok (d =? 93)%Z else Ok false else Ok false);
  do p <- (if v6 then Ok None else mrchr 58 s e);
  do r <- (match p with
           | Some p =>
             if (uport u1 =? 0)%Z then
               if 5 <? e - S p then Ok (set_rej u1, p)
               else if 0 <? e - S p then
                 do v <- port_of (S p) e;
                 match v with Some v => Ok (set_port v u1, p) | None => Ok (set_rej u1, p) end
               else Ok (u1, p)
             else Ok (u1, p)
           | None => Ok (u1, e) end);
  let (u2, hp) := r in
  if urej u2 then Ok u2
  else if hp <? S s then Ok (set_rej u2)
  else do h <- dup s hp;
       let u3 := set_host h u2 in
       if e =? ue then Ok u3 else just_path u3 e.

(* s + 1 < ue && *s == '/' && *(s + 1) == '/' with s = 0 *)
Definition slashes : outcome bool :=
  if 1 <? ue then do a <- ch 0; do b <- ch 1; Ok ((a =? 47)%Z && (b =? 47)%Z) else Ok false.
Fixpoint skip_digits (fuel : nat) (p : nat) : outcome nat :=
  match fuel with
  | 0 => Ok p
  | S f => if p <? ue then do c <- ch p; if dig c then skip_digits f (S p) else Ok p else Ok p
  end.
(* 1370-1398 *)
Definition parse_port (u : uri) (e : nat) : outcome uri :=
  let p := S e in
  do pp <- skip_digits 6 p;
  let n := pp - p in
  do stop <- (if pp =? ue then Ok true else do c <- ch pp; Ok (c =? 47)%Z);
  do sl <- slashes;
  if (0 <? n) && (n <? 6) && stop then
    do v <- port_of p pp;
    match v with
    | Some v => parse_host (set_port v u) (if sl then 2 else 0)
    | None => Ok (set_rej u)
    end
  else if (n =? 0) && (pp =? ue) then Ok (set_rej u)
  else if sl then parse_host u 2
  else just_path u 0.

Definition file_ : bytes := [102; 105; 108; 101]%Z.
(* 1282-1368, 1399-1403 *)
Definition parse : outcome uri :=
  do e0 <- mchr 58 0 ue;
  match e0 with
  | None => do sl <- slashes; if sl then parse_host uri0 2 else just_path uri0 0
  | Some 0 => parse_port uri0 0
  | Some e =>
    do l <- range 0 e;
    if forallb schemec l then
      if S e =? ue then do x <- dup 0 e; Ok (set_scheme x uri0)
      else
        do c1 <- ch (S e);
        if negb (c1 =? 47)%Z then
          do p <- skip_digits (ue - S e) (S e);
          do stop <- (if p =? ue then Ok true else do c <- ch p; Ok (c =? 47)%Z);
          if stop && (p - e <? 7) then parse_port uri0 e
          else do x <- dup 0 e; just_path (set_scheme x uri0) (S e)
        else
          do x <- dup 0 e;
          let u := set_scheme x uri0 in
          do two <- (if S (S e) <? ue then do c <- ch (S (S e)); Ok (c =? 47)%Z else Ok false);
          if two then
            do three <- (if beq (map lower x) file_ then if e + 3 <? ue then do c <- ch (e + 3); Ok (c =? 47)%Z else Ok false else Ok false);
            if three then
              do drive <- (if e + 5 <? ue then do c <- ch (e + 5); Ok (c =? 58)%Z else Ok false);
              just_path u (if drive then e + 4 else e + 3)
            else parse_host u (e + 3)
          else just_path u (S e)
    else
      do q <- cspn 0 ue [63; 35]%Z;
      if (S e <? ue) && (e <? q) then parse_port uri0 e
      else do sl <- slashes; if sl then parse_host uri0 2 else just_path uri0 0
  end.
End Parse.

Inductive transport := TTcp | TTls | TPipe | TUdp | TNone.
Definition s_tcp : bytes := [104;116;116;112;44;116;99;112;44;119;115;44;102;116;112]%Z.                          (* http,tcp,ws,ftp *)
Definition s_tls : bytes := [104;116;116;112;115;44;116;108;115;44;115;115;108;44;119;115;115;44;102;116;112;115]%Z. (* https,tls,ssl,wss,ftps *)
Definition s_pipe : bytes := [102;105;108;101;44;117;110;105;120]%Z.                                              (* file,unix *)
Definition s_udp : bytes := [117;100;112]%Z.
(* 1053-1064 *)
Definition scheme_type (scheme : option bytes) : outcome transport :=
  match scheme with
  | None => Ok TNone
  | Some s =>
    do a <- str_has s_tcp s; if a then Ok TTcp
    else do b <- str_has s_tls s; if b then Ok TTls
    else do c <- str_has s_pipe s; if c then Ok TPipe
    else do d <- str_has s s_udp; Ok (if d then TUdp else TNone)
  end.
(* 1516-1546; None: NULL with EINVAL *)
Definition parse_uri (hostname str : bytes) : outcome (option (uri * transport)) :=
  if length str =? 0 then Ok None
  else do u <- parse str;
    if urej u then Ok None
    else match uhost u with
    | None => Ok None
    | Some h =>
      do dot <- str_has h [46%Z];
      if negb dot && negb (beq h hostname) then Ok None
      else do t <- scheme_type (uscheme u); Ok (Some (u, t))
    end.
