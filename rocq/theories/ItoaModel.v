(* arrays.c 1547-1631: integer formatting (non-s390, non-Apple branch). *)
From Verif Require Import Base StrModel.

(* arrays.c 1548-1554 *)
Definition pairs : list Z :=
  [ 0; 16; 32; 48; 64; 80; 96; 112; 128; 144;
    1; 17; 33; 49; 65; 81; 97; 113; 129; 145;
    2; 18; 34; 50; 66; 82; 98; 114; 130; 146;
    3; 19; 35; 51; 67; 83; 99; 115; 131; 147;
    4; 20; 36; 52; 68; 84; 100; 116; 132; 148 ]%Z.

(* arrays.c 1547-1562 utoa2p: uint16_t result *)
Definition utoa2p (x : Z) : outcome Z :=
  let b50 := if (50 <=? x)%Z then (2 ^ 32 - 1)%Z else 0%Z in
  let x2 := wrapu 32 (x - Z.land 50 b50) in
  do p <- (if (x2 <? 50)%Z then rd pairs (Z.to_nat x2) else UB);
  let t := wrapu 16 (p + Z.land b50 5) in
  Ok (wrapu 16 (Z.lor (Z.land (Z.lor t (Z.shiftl t 4)) 3855) 12336)).

(* arrays.c 1564-1567 utoa2p_ex: little-endian store of the two bytes at offset p *)
Definition utoa2p_ex (x : Z) (tmp : bytes) (p : nat) : outcome bytes :=
  do t <- utoa2p x;
  do t1 <- wr tmp p (t mod 256)%Z;
  wr t1 (S p) (t / 256)%Z.

(* arrays.c 1612-1619: p is an offset into tmp; p -= 2 below 0 is UB *)
Fixpoint itoa_loop (fuel : nat) (x : Z) (tmp : bytes) (p : nat) : outcome (Z * bytes * nat) :=
  match fuel with
  | O => Fuel
  | S f =>
    if Nat.ltb p 2 then UB
    else if (100 <=? x)%Z then
      do t <- utoa2p_ex (x mod 100) tmp (p - 2);
      itoa_loop f (x / 100)%Z t (p - 2)
    else
      do t <- utoa2p_ex x tmp (p - 2);
      Ok (x, t, p - 2)
  end.

(* libc abs on the int64 argument: converted to int (modulo 2^32), abs(INT_MIN) is UB. *)
Definition abs_int (x : Z) : outcome Z :=
  let i := wraps 32 x in
  if (i =? - 2 ^ 31)%Z then UB else Ok (Z.abs i).

(* arrays.c 1595-1631 str_itoa.  [tmp0] is the uninitialised char tmp[20], [beyond] the bytes
   that follow it on the stack.  Result: the whole scratch buffer (from its start) and the
   offset of the returned pointer.  The buffer before the call is [scrape].
   The final memcpy(buf, p, 20) reads past tmp; [strict] makes that UB, otherwise the bytes of
   [beyond] are read. *)
Definition str_itoa (strict : bool) (tmp0 beyond scrape : bytes) (x : Z) : outcome (bytes * nat) :=
  do s1 <- wr scrape 0 45%Z;
  let off := if (x <? 0)%Z then 1 else 0 in
  do ax <- abs_int x;
  do '(x', tmp, p) <- itoa_loop 11 ax tmp0 20;
  let p' := if (x' <? 10)%Z then S p else p in
  let len := 20 - p' in
  if strict && Nat.ltb 20 (p' + 20) then UB
  else
    let src := firstn 20 (skipn p' (tmp ++ beyond)) in
    if Nat.ltb (length s1) (off + 20) || Nat.ltb (length src) 20 then UB
    else
      let s2 := firstn off s1 ++ src ++ skipn (off + 20) s1 in
      do s3 <- wr s2 (off + len) 0%Z;
      Ok (s3, off).
