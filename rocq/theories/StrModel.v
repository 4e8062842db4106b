(* String helpers of src/arrays.c.  A C string is the list of its bytes before the NUL;
   bytes are Z in 0..255, the NUL is 0.  Buffers are lists of bytes. *)
From Verif Require Import Base.

Definition bytes := list Z.

(* libc: memcmp(...)==0 on a prefix, strstr (leftmost occurrence, 0 for an empty needle). *)
Fixpoint prefixb (n t : bytes) : bool :=
  match n, t with
  | [], _ => true
  | _, [] => false
  | x :: n', y :: t' => (x =? y)%Z && prefixb n' t'
  end.

Fixpoint strstr (n t : bytes) : option nat :=
  if prefixb n t then Some 0
  else match t with [] => None | _ :: t' => option_map S (strstr n t') end.

(* libc memchr over the first [len] bytes starting at offset [off] of a buffer: offset found. *)
Fixpoint memchr (buf : bytes) (c : Z) (off len : nat) : outcome (option nat) :=
  match len with
  | O => Ok None
  | S l =>
    do x <- rd buf off;
    if (x =? c)%Z then Ok (Some off) else memchr buf c (S off) l
  end.

(* Bytes of the C string starting at offset [off] of a buffer. *)
Fixpoint until_nul (l : bytes) : bytes :=
  match l with
  | [] => []
  | x :: r => if (x =? 0)%Z then [] else x :: until_nul r
  end.
Definition cstr (buf : bytes) (off : nat) : bytes := until_nul (skipn off buf).

(* arrays.c 834-856 mempos.  Reads are checked; the position is cast to int. *)
Section Mempos.
Variables src pat : bytes.
Fixpoint mp_inner (n d e : nat) : outcome bool :=
  match n with
  | O => Ok true
  | S n' =>
    do m <- rd pat d;
    do s <- rd src e;
    if (m =? s)%Z then mp_inner n' (S d) (S e) else Ok false
  end.
Fixpoint mp_outer (n c : nat) : outcome Z :=
  match n with
  | O => Ok (-1)%Z
  | S n' =>
    do r <- mp_inner (length pat) 0 c;
    if r then Ok (wraps 32 (Z.of_nat c)) else mp_outer n' (S c)
  end.
Definition mempos : outcome Z :=
  if Nat.ltb (length src) (length pat) then Ok (-1)%Z
  else mp_outer (length src - length pat + 1) 0.
End Mempos.

(* arrays.c 969-979 str_pos / str_has on C strings. *)
Definition str_pos (text pattern : bytes) : outcome Z := mempos text pattern.
Definition str_has (text pattern : bytes) : outcome bool :=
  do r <- str_pos text pattern; Ok (Z.leb 0 r).

(* arrays.c 805-828 str_has_either: match2 is read up to its NUL and beyond is UB. *)
Section Either.
Variables src m1 m2 : bytes.
Fixpoint he_inner (n d e : nat) : outcome bool :=
  match n with
  | O => Ok true
  | S n' =>
    do a <- rd m1 d;
    do s <- rd src e;
    if (a =? s)%Z then he_inner n' (S d) (S e)
    else
      do b <- rd (m2 ++ [0%Z]) d;
      if (b =? s)%Z then he_inner n' (S d) (S e) else Ok false
  end.
Fixpoint he_outer (n c : nat) : outcome bool :=
  match n with
  | O => Ok false
  | S n' =>
    do r <- he_inner (length m1) 0 c;
    if r then Ok true else he_outer n' (S c)
  end.
Definition str_has_either : outcome bool :=
  if Nat.ltb (length src) (length m1) then Ok false
  else he_outer (length src - length m1 + 1) 0.
End Either.

(* arrays.c 723-756 str_memnstr: offsets into [hay] instead of pointers, [p] the start offset
   and length hay the end.  Result: offset of the match. *)
Section Memnstr.
Variables hay needle : bytes.
(* memcmp(needle+1, p+1, n) == 0, checked reads *)
Fixpoint memcmp_eq (i p n : nat) : outcome bool :=
  match n with
  | O => Ok true
  | S n' =>
    do a <- rd needle i;
    do b <- rd hay p;
    if (a =? b)%Z then memcmp_eq (S i) (S p) n' else Ok false
  end.
Fixpoint mn_loop (fuel p : nat) (ne n0 : Z) (lim : nat) : outcome (option nat) :=
  (* lim = end - needle_len *)
  if Nat.leb p lim then
    match fuel with
    | O => Fuel
    | S f =>
      do r <- memchr hay n0 p (lim - p + 1);
      match r with
      | None => Ok None
      | Some q =>
        do l <- rd hay (q + length needle - 1);
        if (l =? ne)%Z then
          do m <- memcmp_eq 1 (S q) (length needle - 2);
          if m then Ok (Some q) else mn_loop f (S q) ne n0 lim
        else mn_loop f (S q) ne n0 lim
      end
    end
  else Ok None.
Definition memnstr (p : nat) : outcome (option nat) :=
  if Nat.eqb (length needle) 1 then
    do n0 <- rd needle 0; memchr hay n0 p (length hay - p)
  else if Nat.eqb (length needle) 0 then Ok (Some p)
  else if Nat.ltb (length hay - p) (length needle) then Ok None
  else
    do ne <- rd needle (length needle - 1);
    do n0 <- rd needle 0;
    mn_loop (S (length hay)) p ne n0 (length hay - length needle).

(* arrays.c 758-783 mem_subcount. *)
Fixpoint sc_loop (fuel p count : nat) : outcome nat :=
  match fuel with
  | O => Fuel
  | S f =>
    do r <- memnstr p;
    match r with
    | None => Ok count
    | Some q => sc_loop f (q + length needle) (S count)
    end
  end.
Definition subcount : outcome nat :=
  if Nat.eqb (length needle) 0 then Ok 0 else sc_loop (S (length hay)) 0 0.
End Memnstr.

(* arrays.c 540-577 str_split_ex.  [buf] is the working copy (string, NUL, calloc zeros);
   offsets are relative to it.  The first loop counts words, the second cuts. *)
Section Split.
Variable delim : bytes.
Fixpoint sp_count (fuel : nat) (s : bytes) (nb : nat) : outcome nat :=
  match strstr delim s with
  | None => Ok nb
  | Some k =>
    match fuel with
    | O => Fuel
    | S f => sp_count f (skipn (k + length delim) s) (S nb)
    end
  end.
Fixpoint sp_cut (fuel : nat) (buf : bytes) (off : nat) (ptrs : list nat)
  : outcome (bytes * list nat) :=
  match strstr delim (cstr buf off) with
  | None => Ok (buf, ptrs)
  | Some k =>
    match fuel with
    | O => Fuel
    | S f =>
      do buf' <- wr buf (off + k) 0%Z;
      let off' := off + k + length delim in
      sp_cut f buf' off' (ptrs ++ [off'])
    end
  end.
(* Result: final buffer, word offsets (the NULL-terminated pointer vector), reported count.
   None is the NULL returned for an empty string.  The pointer vector holds nbWords+1 slots;
   storing more is UB. *)
Definition str_split (s : bytes) : outcome (option (bytes * list nat * nat)) :=
  if Nat.eqb (length s) 0 then Ok None
  else
    do nb <- sp_count (S (length s)) s 1;
    let buf := s ++ [0%Z] in
    do '(buf', ptrs) <-
      (if Nat.ltb 1 nb then sp_cut (S (length s)) buf 0 [0] else Ok (buf, [0]));
    if Nat.leb (length ptrs + 1) (nb + 1) then Ok (Some (buf', ptrs, nb)) else UB.
End Split.

(* What the caller sees: the words as C strings. *)
Definition words (r : bytes * list nat * nat) : list bytes :=
  let '(buf, ptrs, _) := r in map (cstr buf) ptrs.

(* Sequential output into a buffer of [size] bytes. *)
Definition emit (size : nat) (out : bytes) (c : Z) : outcome bytes :=
  if Nat.ltb (length out) size then Ok (out ++ [c]) else UB.
Fixpoint emits (size : nat) (out : bytes) (cs : bytes) : outcome bytes :=
  match cs with
  | [] => Ok out
  | c :: r => do o <- emit size out c; emits size o r
  end.

(* arrays.h _mem_align_up(x, 2) *)
Definition align2 (n : nat) : nat := n + Nat.modulo n 2.

(* arrays.c 442-475 str_swap_ex.  [strstr(h, needle) == h] is the prefix test.
   sizes are size_t: i + cnt * (new - old) + 1 modulo 2^64. *)
Section Swap.
Variables needle swap : bytes.
Fixpoint sw_count (fuel : nat) (s : bytes) (i cnt : nat) : outcome (nat * nat) :=
  match s with
  | [] => Ok (i, cnt)
  | _ :: t =>
    match fuel with
    | O => Fuel
    | S f =>
      if prefixb needle s then sw_count f (skipn (length needle) s) (i + length needle) (S cnt)
      else sw_count f t (S i) cnt
    end
  end.
Fixpoint sw_copy (fuel size : nat) (s : bytes) (out : bytes) : outcome bytes :=
  match s with
  | [] => Ok out
  | c :: t =>
    match fuel with
    | O => Fuel
    | S f =>
      if prefixb needle s then
        do o <- emits size out swap; sw_copy f size (skipn (length needle) s) o
      else do o <- emit size out c; sw_copy f size t o
    end
  end.
Definition str_swap (s : bytes) : outcome (option bytes) :=
  do '(i, cnt) <- sw_count (S (length s)) s 0 0;
  if Nat.eqb cnt 0 then Ok None
  else
    let size := Z.to_nat (wrapu 64 (Z.of_nat i
                 + Z.of_nat cnt * (Z.of_nat (length swap) - Z.of_nat (length needle)) + 1)) in
    do o <- sw_copy (S (length s)) (align2 size) s [];
    do o' <- emit (align2 size) o 0%Z;
    Ok (Some o').
End Swap.

(* arrays.c 620-656 str_repeat.  The result holds result_len + 1 bytes (rounded up), zeroed.
   len == 1 uses memset, otherwise chunks of growing size are copied from the front. *)
Fixpoint rp_loop (fuel total : nat) (out : bytes) : outcome bytes :=
  if Nat.ltb (length out) total then
    match fuel with
    | O => Fuel
    | S f =>
      let l := Nat.min (length out) (total - length out) in
      do o <- emits total out (firstn l out); rp_loop f total o
    end
  else Ok out.
Definition str_repeat (s : bytes) (mult : Z) : outcome bytes :=
  if (mult <? 0)%Z then Exn
  else if (Nat.eqb (length s) 0) || (mult =? 0)%Z then Ok []
  else
    let m := Z.to_nat mult in
    let total := length s * m in
    match s with
    | [c] => emits total [] (repeat c m)
    | _ => do o <- emits total [] s; rp_loop total total o
    end.

(* arrays.c 658-721 str_pad. *)
Inductive pad_type := PAD_LEFT | PAD_RIGHT | PAD_BOTH.
Fixpoint pd_loop (size : nat) (pad : bytes) (n i : nat) (out : bytes) : outcome bytes :=
  match n with
  | O => Ok out
  | S n' =>
    do c <- rd pad (Nat.modulo i (length pad));
    do o <- emit size out c;
    pd_loop size pad n' (S i) o
  end.
Definition str_pad (s : bytes) (len : Z) (pad : bytes) (ty : pad_type) : outcome bytes :=
  if (len <=? Z.of_nat (length s))%Z then Ok s
  else if Nat.eqb (length pad) 0 then Exn
  else
    let num := Z.to_nat len - length s in
    let size := align2 (length s + num + 1) in
    let left := match ty with PAD_RIGHT => 0 | PAD_LEFT => num | PAD_BOTH => Nat.div num 2 end in
    let right := num - left in
    do o1 <- pd_loop size pad left 0 [];
    do o2 <- emits size o1 s;
    pd_loop size pad right 0 o2.

(* arrays.c 789-803 ltrim, rtrim, trim on a buffer holding a C string at offset 0.
   Result: offset of the trimmed string and the buffer after the NUL was stored.
   isspace in the C locale: space and 9..13. *)
Definition isspace (c : Z) : bool := (c =? 32)%Z || ((9 <=? c)%Z && (c <=? 13)%Z).
Fixpoint ltrim (fuel : nat) (buf : bytes) (off : nat) : outcome nat :=
  match fuel with
  | O => Fuel
  | S f => do c <- rd buf off; if isspace c then ltrim f buf (S off) else Ok off
  end.
(* back points at offset [n]; the loop pre-decrements before each read.  Reading below
   offset 0 is UB. *)
Fixpoint rtrim_back (buf : bytes) (n : nat) : outcome nat :=
  match n with
  | O => UB
  | S m => do c <- rd buf m; if isspace c then rtrim_back buf m else Ok m
  end.
Definition trim (s : bytes) : outcome (bytes * nat) :=
  let buf := s ++ [0%Z] in
  do off <- ltrim (S (length buf)) buf 0;
  do back <- rtrim_back buf (off + length (cstr buf off));
  do buf' <- wr buf (S back) 0%Z;
  Ok (buf', off).

(* arrays.c 1006-1021 str_lcpy: [dest] has its own size; writes are checked against it. *)
Fixpoint lcpy_loop (len : nat) (dest src : bytes) (d : nat) : outcome bytes :=
  match src with
  | c :: src' =>
    if Nat.ltb 1 len then
      do dest' <- wr dest d c; lcpy_loop (len - 1) dest' src' (S d)
    else wr dest d 0%Z
  | [] => wr dest d 0%Z
  end.
Definition str_lcpy (dest src : bytes) (len : nat) : outcome bytes :=
  if Nat.eqb len 0 then Ok dest
  else if Nat.eqb (length src) 0 then wr dest 0 0%Z
  else lcpy_loop len dest src 0.

(* arrays.c 1066-1085 tolower_map, transcribed, and the tolower_ascii macro (an index outside
   the table cannot occur: the macro casts to unsigned char). *)
Definition tolower_map : list Z :=
  [0; 1; 2; 3; 4; 5; 6; 7; 8; 9; 10; 11; 12; 13; 14; 15;
   16; 17; 18; 19; 20; 21; 22; 23; 24; 25; 26; 27; 28; 29; 30; 31;
   32; 33; 34; 35; 36; 37; 38; 39; 40; 41; 42; 43; 44; 45; 46; 47;
   48; 49; 50; 51; 52; 53; 54; 55; 56; 57; 58; 59; 60; 61; 62; 63;
   64; 97; 98; 99; 100; 101; 102; 103; 104; 105; 106; 107; 108; 109; 110; 111;
   112; 113; 114; 115; 116; 117; 118; 119; 120; 121; 122; 91; 92; 93; 94; 95;
   96; 97; 98; 99; 100; 101; 102; 103; 104; 105; 106; 107; 108; 109; 110; 111;
   112; 113; 114; 115; 116; 117; 118; 119; 120; 121; 122; 123; 124; 125; 126; 127;
   128; 129; 130; 131; 132; 133; 134; 135; 136; 137; 138; 139; 140; 141; 142; 143;
   144; 145; 146; 147; 148; 149; 150; 151; 152; 153; 154; 155; 156; 157; 158; 159;
   160; 161; 162; 163; 164; 165; 166; 167; 168; 169; 170; 171; 172; 173; 174; 175;
   176; 177; 178; 179; 180; 181; 182; 183; 184; 185; 186; 187; 188; 189; 190; 191;
   192; 193; 194; 195; 196; 197; 198; 199; 200; 201; 202; 203; 204; 205; 206; 207;
   208; 209; 210; 211; 212; 213; 214; 215; 216; 217; 218; 219; 220; 221; 222; 223;
   224; 225; 226; 227; 228; 229; 230; 231; 232; 233; 234; 235; 236; 237; 238; 239;
   240; 241; 242; 243; 244; 245; 246; 247; 248; 249; 250; 251; 252; 253; 254; 255]%Z.
Definition tolower_ascii (c : Z) : Z := nth (Z.to_nat (c mod 256)) tolower_map 0%Z.

(* arrays.c 1087-1102 binary_strcasecmp (different pointers). *)
Fixpoint bscc_loop (n : nat) (s1 s2 : bytes) : outcome (option Z) :=
  match n with
  | O => Ok None
  | S n' =>
    match s1, s2 with
    | a :: r1, b :: r2 =>
      let c1 := tolower_ascii a in
      let c2 := tolower_ascii b in
      if (c1 =? c2)%Z then bscc_loop n' r1 r2 else Ok (Some (c1 - c2)%Z)
    | _, _ => UB
    end
  end.
Definition strcasecmp (s1 s2 : bytes) : outcome Z :=
  do r <- bscc_loop (Nat.min (length s1) (length s2)) s1 s2;
  match r with
  | Some d => Ok d
  | None => Ok (wraps 32 (Z.of_nat (length s1) - Z.of_nat (length s2)))
  end.

(* arrays.c 985-996 str_case_equal on C strings (NUL included in the compared bytes);
   [len] is the size_t limit, the do/while body runs before the test. *)
Fixpoint sce_loop (len : nat) (s1 s2 : bytes) : outcome bool :=
  match len with
  | O => Ok true
  | S n =>
    do a <- rd s1 0;
    do b <- rd s2 0;
    if (tolower_ascii a =? tolower_ascii b)%Z then
      if (a =? 0)%Z then Ok true
      else match n with O => Ok true | _ => sce_loop n (tl s1) (tl s2) end
    else Ok false
  end.
Definition str_case_equal (s1 s2 : bytes) (len : nat) : outcome bool :=
  if Nat.eqb len 0 then Ok false else sce_loop len (s1 ++ [0%Z]) (s2 ++ [0%Z]).

(* arrays.c 29, 420-440 str_cat_argv over the static buffer EVENTS_ARGS, which keeps its
   contents between calls.  [acc] is the buffer; strncat(EVENTS_ARGS + offset, str, len) finds
   the NUL at or after [offset] and appends there.
   Simplification: the buffer is long enough (32768 in the code), so only contents matter. *)
Definition strncat_at (buf : bytes) (off : nat) (s : bytes) : bytes :=
  let p := off + length (cstr buf off) in
  firstn p buf ++ s ++ 0%Z :: skipn (p + length s + 1) buf.
Fixpoint cat_loop (buf : bytes) (delim : Z) (first : bool) (j : nat) (args : list bytes)
  : bytes :=
  match args with
  | [] => buf
  | a :: r =>
    let '(buf1, j1) := if first then (buf, j) else (strncat_at buf j [delim], j + 1) in
    cat_loop (strncat_at buf1 j1 a) delim false (j1 + length a) r
  end.
Definition str_cat_argv (buf : bytes) (delim : Z) (args : list bytes) : outcome bytes :=
  let len := fold_right (fun a n => length a + 1 + n) 0 args in
  match len with
  | O => UB   (* str[0 - 1] *)
  | S l => wr (cat_loop buf delim true 0 args) l 0%Z
  end.
