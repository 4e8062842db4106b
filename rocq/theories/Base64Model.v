(* arrays.c 1641-1790: base64 encoding and decoding of C strings. *)
From Verif Require Import Base StrModel.

(* arrays.c 1641-1642 base64_table: "A..Za..z0..9+/" *)
Definition base64_table : list Z :=
  [65; 66; 67; 68; 69; 70; 71; 72; 73; 74; 75; 76; 77; 78; 79; 80; 81; 82; 83; 84;
   85; 86; 87; 88; 89; 90; 97; 98; 99; 100; 101; 102; 103; 104; 105; 106; 107; 108; 109; 110;
   111; 112; 113; 114; 115; 116; 117; 118; 119; 120; 121; 122; 48; 49; 50; 51; 52; 53; 54; 55;
   56; 57; 43; 47]%Z.

(* arrays.c 1644-1666 base64_decode_table, transcribed; 0x80 = 128 marks a foreign character *)
Definition decode_table : list Z :=
  [128; 128; 128; 128; 128; 128; 128; 128; 128; 128; 128; 128; 128; 128; 128; 128; 128; 128; 128; 128;
   128; 128; 128; 128; 128; 128; 128; 128; 128; 128; 128; 128; 128; 128; 128; 128; 128; 128; 128; 128;
   128; 128; 128; 62; 128; 128; 128; 63; 52; 53; 54; 55; 56; 57; 58; 59; 60; 61; 128; 128;
   128; 0; 128; 128; 128; 0; 1; 2; 3; 4; 5; 6; 7; 8; 9; 10; 11; 12; 13; 14;
   15; 16; 17; 18; 19; 20; 21; 22; 23; 24; 25; 128; 128; 128; 128; 128; 128; 26; 27; 28;
   29; 30; 31; 32; 33; 34; 35; 36; 37; 38; 39; 40; 41; 42; 43; 44; 45; 46; 47; 48;
   49; 50; 51; 128; 128; 128; 128; 128; 128; 128; 128; 128; 128; 128; 128; 128; 128; 128; 128; 128;
   128; 128; 128; 128; 128; 128; 128; 128; 128; 128; 128; 128; 128; 128; 128; 128; 128; 128; 128; 128;
   128; 128; 128; 128; 128; 128; 128; 128; 128; 128; 128; 128; 128; 128; 128; 128; 128; 128; 128; 128;
   128; 128; 128; 128; 128; 128; 128; 128; 128; 128; 128; 128; 128; 128; 128; 128; 128; 128; 128; 128;
   128; 128; 128; 128; 128; 128; 128; 128; 128; 128; 128; 128; 128; 128; 128; 128; 128; 128; 128; 128;
   128; 128; 128; 128; 128; 128; 128; 128; 128; 128; 128; 128; 128; 128; 128; 128; 128; 128; 128; 128;
   128; 128; 128; 128; 128; 128; 128; 128; 128; 128; 128; 128; 128; 128; 128; 128]%Z.
Definition dtab (c : Z) : outcome Z := rd decode_table (Z.to_nat (c mod 256)).

(* arrays.c 1668-1671: size_t arithmetic, but ~3u is a 32-bit constant, so the mask clears
   the upper half. *)
Definition base64_len (n : Z) : Z :=
  Z.land (wrapu 64 (wrapu 64 (4 * n) / 3 + 3)) (2 ^ 32 - 4).

(* arrays.c 1673-1684 str_is_base64 *)
Fixpoint all_in_alphabet (s : bytes) : outcome bool :=
  match s with
  | [] => Ok true
  | c :: r => do t <- dtab c; if (t =? 128)%Z then Ok false else all_in_alphabet r
  end.
Definition str_is_base64 (s : bytes) : outcome bool :=
  if Nat.eqb (length s) 0 then Ok false else all_in_alphabet s.

Definition sextet (i : Z) : outcome Z := rd base64_table (Z.to_nat i).

(* arrays.c 1703-1724: the output pointer only moves forward, so the output is a sequence of
   checked appends into the [size] bytes of dst. *)
Fixpoint enc_loop (size : nat) (s out : bytes) : outcome bytes :=
  match s with
  | a :: b :: c :: r =>
    do x0 <- sextet (Z.shiftr a 2);
    do o0 <- emit size out x0;
    do x1 <- sextet (Z.lor (Z.shiftl (Z.land a 3) 4) (Z.shiftr b 4));
    do o1 <- emit size o0 x1;
    do x2 <- sextet (Z.lor (Z.shiftl (Z.land b 15) 2) (Z.shiftr c 6));
    do o2 <- emit size o1 x2;
    do x3 <- sextet (Z.land c 63);
    do o3 <- emit size o2 x3;
    enc_loop size r o3
  | [a; b] =>
    do x0 <- sextet (Z.shiftr a 2);
    do o0 <- emit size out x0;
    do x1 <- sextet (Z.lor (Z.shiftl (Z.land a 3) 4) (Z.shiftr b 4));
    do o1 <- emit size o0 x1;
    do x2 <- sextet (Z.shiftl (Z.land b 15) 2);
    do o2 <- emit size o1 x2;
    emit size o2 61%Z
  | [a] =>
    do x0 <- sextet (Z.shiftr a 2);
    do o0 <- emit size out x0;
    do x1 <- sextet (Z.shiftl (Z.land a 3) 4);
    do o1 <- emit size o0 x1;
    do o2 <- emit size o1 61%Z;
    emit size o2 61%Z
  | [] => Ok out
  end.

(* arrays.c 1686-1726 str_encode64; None is the NULL result.  dst really has dst_len bytes. *)
Definition str_encode64 (src : bytes) (dst_len : nat) : outcome (option bytes) :=
  if Nat.eqb (length src) 0 then Ok None
  else if (Z.of_nat dst_len <? base64_len (Z.of_nat (length src)) + 1)%Z then Ok None
  else
    do o <- enc_loop dst_len src [];
    do o' <- emit dst_len o 0%Z;
    Ok (Some o').

(* arrays.c 1760-1786.  [block] holds the sextets of the current group; pos -= k drops the last
   k bytes of the output (bytes behind the final NUL are not tracked). *)
Definition byte_of (x : Z) : Z := (x mod 256)%Z.
Fixpoint dec_loop (size : nat) (s block : bytes) (pad : nat) (out : bytes) : outcome (option bytes) :=
  match s with
  | [] => do o <- emit size out 0%Z; Ok (Some o)
  | ch :: r =>
    do t <- dtab ch;
    if (t =? 128)%Z then dec_loop size r block pad out
    else
      let pad' := if (ch =? 61)%Z then S pad else pad in
      match block with
      | [b0; b1; b2] =>
        do o0 <- emit size out (byte_of (Z.lor (Z.shiftl b0 2) (Z.shiftr b1 4)));
        do o1 <- emit size o0 (byte_of (Z.lor (Z.shiftl b1 4) (Z.shiftr b2 2)));
        do o2 <- emit size o1 (byte_of (Z.lor (Z.shiftl b2 6) t));
        match pad' with
        | O => dec_loop size r [] 0 o2
        | S O => do o <- emit size o1 0%Z; Ok (Some o)
        | S (S O) => do o <- emit size o0 0%Z; Ok (Some o)
        | _ => Ok None
        end
      | _ => if Nat.ltb (length block) 3 then dec_loop size r (block ++ [t]) pad' out else UB
      end
  end.

(* arrays.c 1747-1752 *)
Fixpoint count_valid (s : bytes) (n : nat) : outcome nat :=
  match s with
  | [] => Ok n
  | c :: r => do t <- dtab c; count_valid r (if (t =? 128)%Z then n else S n)
  end.

(* arrays.c 1728-1790 str_decode64; None is the NULL result.
   (len + 2) / 3 * 4 + 1 cannot wrap for a string that fits in memory. *)
Definition str_decode64 (src : bytes) (dst_len : nat) : outcome (option bytes) :=
  do ok <- str_is_base64 src;
  if negb ok then Ok None
  else if Nat.ltb dst_len (Nat.div (length src + 2) 3 * 4 + 1) then Ok None
  else
    do count <- count_valid src 0;
    if Nat.eqb count 0 || negb (Nat.eqb (Nat.modulo count 4) 0) then Ok None
    else dec_loop dst_len src [] 0 [].
