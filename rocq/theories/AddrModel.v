(* Address text: async_io.c 378-483.  A host text is the list of its bytes before the NUL. *)
From Verif Require Import Base StrModel.
Local Open Scope Z_scope.

Definition digitb (c : Z) : bool := (48 <=? c) && (c <=? 57).
Fixpoint skip_ws (s : bytes) : bytes := match s with c :: r => if isspace c then skip_ws r else s | [] => [] end.
(* optional sign: negative?, rest *)
Definition sign (s : bytes) : bool * bytes :=
  match s with c :: r => if c =? 43 then (false, r) else if c =? 45 then (true, r) else (false, s) | [] => (false, []) end.
Fixpoint run (p : Z -> bool) (s : bytes) : bytes * bytes :=
  match s with c :: r => if p c then let (a, b) := run p r in (c :: a, b) else ([], s) | [] => ([], []) end.
Definition dval (ds : bytes) : Z := fold_left (fun v c => 10 * v + (c - 48)) ds 0.

(* libc scanf %u: white space, sign, decimal digits.  None: no match.  A number that does not fit an
   unsigned int is undefined (C11 7.21.6.2). *)
Definition scan_u (s : bytes) : outcome (option (Z * bytes)) :=
  let (neg, s1) := sign (skip_ws s) in
  let (ds, r) := run digitb s1 in
  match ds with
  | [] => Ok None
  | _ => if dval ds <? 2 ^ 32 then Ok (Some (if neg then wrapu 32 (- dval ds) else dval ds, r)) else UB
  end.
Definition lit (c : Z) (s : bytes) : option bytes := match s with x :: r => if x =? c then Some r else None | [] => None end.
(* "%u" followed by a literal character *)
Definition scan_lit (c : Z) (s : bytes) : outcome (option (Z * bytes)) :=
  do r <- scan_u s;
  match r with
  | Some (v, s1) => match lit c s1 with Some s2 => Ok (Some (v, s2)) | None => Ok None end
  | None => Ok None
  end.
(* line 397: "%u.%u.%u.%u:%u" == 5 *)
Definition scan_quad (s : bytes) : outcome (option (Z * Z * Z * Z * Z)) :=
  do r1 <- scan_lit 46 s; match r1 with None => Ok None | Some (a, s1) =>
  do r2 <- scan_lit 46 s1; match r2 with None => Ok None | Some (b, s2) =>
  do r3 <- scan_lit 46 s2; match r3 with None => Ok None | Some (c, s3) =>
  do r4 <- scan_lit 58 s3; match r4 with None => Ok None | Some (d, s4) =>
  do r5 <- scan_u s4; match r5 with None => Ok None | Some (p, _) => Ok (Some (a, b, c, d, p)) end end end end end.
(* line 413: "[%49[^]]]:%u" == 2; the set takes at most 49 bytes *)
Definition scan_v6 (s : bytes) : outcome (option (bytes * Z)) :=
  match lit 91 s with None => Ok None | Some s1 =>
    let (name, s2) := run (fun c => negb (c =? 93)) s1 in
    let took := firstn 49 name in
    let s2' := skipn 49 name ++ s2 in
    match took with
    | [] => Ok None
    | _ => match lit 93 s2' with None => Ok None | Some s3 =>
           match lit 58 s3 with None => Ok None | Some s4 =>
           do r <- scan_u s4; match r with None => Ok None | Some (p, _) => Ok (Some (took, p)) end end end
    end
  end.
(* libc strtoul with base 0: only whether the value is non-zero matters at line 421 (it saturates) *)
Definition octb (c : Z) : bool := (48 <=? c) && (c <=? 55).
Definition hexb (c : Z) : bool := digitb c || ((65 <=? c) && (c <=? 70)) || ((97 <=? c) && (c <=? 102)).
Definition strtoul_nonzero (s : bytes) : bool :=
  let (_, s1) := sign (skip_ws s) in
  let some_nonzero ds := existsb (fun c => negb (c =? 48)) ds in
  match s1 with
  | 48 :: x :: h :: r =>
    if ((x =? 120) || (x =? 88)) && hexb h then some_nonzero (fst (run hexb (h :: r)))
    else some_nonzero (fst (run octb s1))
  | 48 :: _ => some_nonzero (fst (run octb s1))
  | _ => some_nonzero (fst (run digitb s1))
  end.
Fixpoint cut_colon (s : bytes) : option (bytes * bytes) :=
  match s with
  | [] => None
  | c :: r => if c =? 58 then Some ([], r) else match cut_colon r with Some (a, b) => Some (c :: a, b) | None => None end
  end.

(* V4: the 32-bit address as a number (a is its top byte) and the port *)
Inductive addr := V4 (ip port : Z) | V6 (ip : nat) (port : Z) | Unix (path : bytes) | Fail.
Definition u32 := wrapu 32.
Definition u16 := wrapu 16.

(* async_io.c 378-483.  [res4], [res6]: name resolution, an arbitrary function here (addresses of
   version 6 are opaque). *)
Definition parse_addr (res4 : bytes -> option Z) (res6 : bytes -> option nat) (host : bytes) : outcome addr :=
  do q <- scan_quad host;
  match q with
  | Some (a, b, c, d, port) =>
    Ok (V4 (Z.lor (Z.lor (Z.lor (u32 (Z.shiftl a 24)) (u32 (Z.shiftl b 16))) (u32 (Z.shiftl c 8))) d) (u16 port))
  | None =>
    do v <- scan_v6 host;
    match (match v with Some (name, port) => match res6 name with Some ip => Some (V6 ip (u16 port)) | None => None end | None => None end) with
    | Some r => Ok r
    | None =>
      (* port is above 0xffff only when line 413 matched, where strtoul gives 0 *)
      if strtoul_nonzero host then Ok (V4 0 (u16 1))
      else match cut_colon host with
      | Some (name, rest) =>
        if 260 <=? Z.of_nat (length name) then Ok Fail
        else match res4 name with
        | Some ip => do r <- scan_u rest; match r with Some (p, _) => Ok (V4 ip (u16 p)) | None => Ok Fail end
        | None => match res6 name with
          | Some ip => do r <- scan_u rest; match r with Some (p, _) => Ok (V6 ip (u16 p)) | None => Ok Fail end
          | None => Ok Fail
          end
        end
      | None =>
        match host with
        | 120 :: path => if Z.of_nat (length host) <? 108 then Ok (Unix path) else Ok Fail
        | _ => Ok Fail
        end
      end
    end
  end.
