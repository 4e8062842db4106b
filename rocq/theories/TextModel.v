(* More text routines of src/arrays.c: exploding into an array, splitting binary data,
   concatenation, letter case, host:port texts, path components. *)
From Verif Require Import Base ArrayModel StrModel AddrModel.

(* arrays.c 579-618 str_explode.  [s] is the text (None inside the result is the null returned for an
   empty text).  The copy is placed at the start of a zeroed block of
   _mem_align_up(nbWords * 8 + sLen + 1, 2) bytes.  The loops over strstr are those of
   str_split_ex (StrModel.sp_count, sp_cut), counting from 0.  The words are appended through a
   handle the callee cannot update (ArrayModel.happends); [moves] says for each append whether a
   growth there would move the block, [q] is the capacity of array().  The array of word offsets
   is read back through the same handle by the caller.  [n] bounds the iterations of each loop. *)
Definition str_explode (n q : nat) (moves : nat -> bool) (s delim : bytes)
  : outcome (option (bytes * block nat)) :=
  if Nat.eqb (length s) 0 then Ok None
  else
    do nb <- sp_count delim n s 0;
    if Nat.eqb nb 0 then Ok (Some ([], fresh q))
    else
      let size := align2 (nb * 8 + length s + 1) in
      do '(buf, offs) <- sp_cut delim n (s ++ repeat 0%Z (size - length s)) 0 [0];
      do h <- happends [Some (fresh q)] 0 (combine offs (map moves (seq 0 (length offs))));
      do b <- hget h 0;
      Ok (Some (buf, b)).

(* arrays.c 494-538 mem_split_ex.  libc memmem is the leftmost occurrence within the given
   length (StrModel.strstr on that slice; an empty needle is found at once). *)
Definition memmem (buf : bytes) (off len : nat) (delim : bytes) : option nat :=
  strstr delim (firstn len (skipn off buf)).
Fixpoint ms_count (fuel : nat) (src delim : bytes) (hay len nb : nat) : outcome nat :=
  match memmem src hay len delim with
  | None => Ok nb
  | Some k =>
    match fuel with
    | O => Fuel
    | S f => ms_count f src delim (hay + k + length delim) (len - (k + length delim)) (S nb)
    end
  end.
Fixpoint ms_cut (fuel : nat) (buf delim : bytes) (hay len : nat) (ptrs : list nat)
  : outcome (bytes * list nat) :=
  match memmem buf hay len delim with
  | None => Ok (buf, ptrs)
  | Some k =>
    match fuel with
    | O => Fuel
    | S f =>
      do buf' <- wr buf (hay + k) 0%Z;
      ms_cut f buf' delim (hay + k + length delim) (len - (k + length delim))
             (ptrs ++ [hay + k + length delim])
    end
  end.
(* Result: the working copy (with the zero byte calloc leaves behind it), the word offsets, the
   count.  The pointer vector has nbWords + 1 slots; storing more is UB. *)
Definition mem_split (n : nat) (src delim : bytes) : outcome (option (bytes * list nat * nat)) :=
  if Nat.eqb (length src) 0 then Ok None
  else
    do nb <- ms_count n src delim 0 (length src) 1;
    let buf := src ++ [0%Z] in
    do '(buf', ptrs) <-
      (if Nat.ltb 1 nb then ms_cut n buf delim 0 (length src) [0] else Ok (buf, [0]));
    if Nat.leb (length ptrs + 1) (nb + 1) then Ok (Some (buf', ptrs, nb)) else UB.

(* arrays.c 393-418 str_cat_ex: NULL without arguments, otherwise the arguments copied one behind
   the other (str_cpy with length 0 copies strlen bytes) into a zeroed block. *)
Fixpoint copy_at (buf : bytes) (off : nat) (s : bytes) : outcome bytes :=
  match s with
  | [] => Ok buf
  | c :: r => do b <- wr buf off c; copy_at b (S off) r
  end.
Fixpoint cat_copy (buf : bytes) (off : nat) (args : list bytes) : outcome bytes :=
  match args with
  | [] => Ok buf
  | s :: r => do b <- copy_at buf off s; cat_copy b (off + length s) r
  end.
Definition str_cat (args : list bytes) : outcome (option bytes) :=
  match args with
  | [] => Ok None
  | _ =>
    let size := align2 (fold_left (fun n s => n + length s) args 0 + 1) in
    do b <- cat_copy (repeat 0%Z size) 0 args; Ok (Some b)
  end.

(* arrays.c 1023-1051 str_toupper, str_tolower, in the C locale: in place, byte by byte up to the
   length of the string. *)
Definition toupper (c : Z) : Z := if ((97 <=? c) && (c <=? 122))%Z then (c - 32)%Z else c.
Definition tolower (c : Z) : Z := if ((65 <=? c) && (c <=? 90))%Z then (c + 32)%Z else c.
Fixpoint map_bytes (f : Z -> Z) (n : nat) (buf : bytes) (i : nat) : outcome bytes :=
  match n with
  | O => Ok buf
  | S n' => do c <- rd buf i; do b <- wr buf i (f c); map_bytes f n' b (S i)
  end.
Definition str_toupper (buf : bytes) : outcome bytes := map_bytes toupper (length (cstr buf 0)) buf 0.
Definition str_tolower (buf : bytes) : outcome bytes := map_bytes tolower (length (cstr buf 0)) buf 0.

(* ---- host texts ---- *)
(* libc atoi: blanks, sign, decimal digits; a value that does not fit an int is undefined. *)
Definition atoi (s : bytes) : outcome Z :=
  let (neg, s1) := sign (skip_ws s) in
  let v := dval (fst (AddrModel.run digitb s1)) in
  let v := if neg then (- v)%Z else v in
  if ((- 2 ^ 31 <=? v) && (v <? 2 ^ 31))%Z then Ok v else UB.

(* libc strtoul with base 0: value (saturating at 2^64 - 1, negated modulo 2^64 after a minus sign)
   and the rest of the text; without digits 0 and the whole text. *)
Definition hexval (c : Z) : Z :=
  if (c <=? 57)%Z then (c - 48)%Z else if (c <=? 70)%Z then (c - 55)%Z else (c - 87)%Z.
Definition based (b : Z) (ds : bytes) : Z := fold_left (fun v c => (b * v + hexval c)%Z) ds 0%Z.
Definition clip (neg : bool) (v : Z) : Z :=
  if (2 ^ 64 <=? v)%Z then (2 ^ 64 - 1)%Z else if neg then wrapu 64 (- v) else v.
Definition strtoul (s : bytes) : Z * bytes :=
  let (neg, s1) := sign (skip_ws s) in
  let plain (_ : unit) :=
    match s1 with
    | 48%Z :: _ => let (ds, r) := AddrModel.run octb s1 in (clip neg (based 8 ds), r)
    | _ => let (ds, r) := AddrModel.run digitb s1 in
           match ds with [] => (0%Z, s) | _ => (clip neg (based 10 ds), r) end
    end in
  match s1 with
  | 48%Z :: x :: h :: r0 =>
    if (((x =? 120) || (x =? 88)) && hexb h)%Z
    then let (ds, r) := AddrModel.run hexb (h :: r0) in (clip neg (based 16 ds), r)
    else plain tt
  | _ => plain tt
  end.

(* What str_parseip returns: the caller's own pointer, a copy (freed later by the library or
   owned by the caller), a pointer made of the first eight bytes of a text, or NULL. *)
Inductive handed := Own | Copied (deferred : bool) (text : bytes) | Wild (word : bytes) | Null.
(* [ip]: the four bytes stored, None for a byte never written; [port]: the number stored;
   [caller]: the caller's text afterwards. *)
Record parsed := mkp { p_ret : handed; p_ip : option (list (option Z)); p_port : option Z; p_caller : bytes }.

(* arrays.c 1173-1182: at most four numbers separated by dots; None: not a number below 256 or
   not followed by a dot or the end. *)
Fixpoint octets (n : nat) (p : bytes) (acc : list Z) : option (list Z) :=
  match n with
  | O => Some acc
  | S n' =>
    match p with
    | [] => Some acc
    | _ =>
      let (v, p') := strtoul p in
      let x := wraps 32 v in
      if ((x <? 0) || (256 <=? x))%Z then None
      else match p' with
           | [] => octets n' [] (acc ++ [x])
           | c :: r => if (c =? 46)%Z then octets n' r (acc ++ [x]) else None
           end
    end
  end.
(* arrays.c 1184-1206, [ip_class] is the top two bits of the first byte.  None: refused.  Reading
   the first byte when none was written is undefined. *)
Definition classful (l : list Z) : outcome (option (list (option Z))) :=
  match l with
  | [] => UB
  | a :: r =>
    let k := (a / 64)%Z in
    if (k <? 2)%Z then
      match r with
      | [b; c] => Ok (Some [Some a; Some 0%Z; Some b; Some c])
      | [b] => Ok (Some [Some a; Some 0%Z; Some 0%Z; Some b])
      | [b; c; d] => Ok (Some [Some a; Some b; Some c; Some d])
      | _ => Ok None
      end
    else if (k =? 2)%Z then
      match r with
      | [b; c] => Ok (Some [Some a; Some b; Some 0%Z; Some c])
      | [b; c; d] => Ok (Some [Some a; Some b; Some c; Some d])
      | _ => Ok None
      end
    else Ok (Some (map Some l ++ repeat None (4 - length l)))
  end.
(* arrays.c 1172-1210, given what is returned on refusal and on success. *)
Definition scan_ip (name : bytes) (bad : handed) (good : outcome handed) (port : option Z) (caller : bytes)
  : outcome parsed :=
  match octets 4 name [] with
  | None => Ok (mkp bad None port caller)
  | Some l =>
    do c <- classful l;
    match c with
    | None => Ok (mkp bad None port caller)
    | Some ip => do g <- good; Ok (mkp g (Some ip) port caller)
    end
  end.

Definition slashes : bytes := [47; 47]%Z.
Definition close_colon : bytes := [93; 58]%Z.

(* arrays.c 1139-1211 str_parseip.  [name0]: the caller's text.  The copy behind "//" holds at most
   259 bytes.  Without autofree the split copy is released before its first word is parsed.  The
   copy made for a text without port is a plain string, but is then indexed as a vector of
   pointers: its first eight bytes, if the block (a multiple of two) has them. *)
Definition str_parseip (autofree : bool) (name0 : bytes) : outcome parsed :=
  do i <- str_pos name0 slashes;
  let isbuf := (3 <? i)%Z in
  let name := if isbuf then firstn 259 (skipn (Z.to_nat i + 2) name0) else name0 in
  do j <- str_pos name close_colon;
  if (3 <? j)%Z then
    do port <- atoi (skipn (Z.to_nat j + 2) name);
    let cut := firstn (Z.to_nat j + 1) name in
    Ok (mkp (Copied autofree cut) None (Some port) (if isbuf then name0 else cut))
  else
    do k <- str_pos name [58%Z];
    if (6 <? k)%Z then
      let host := firstn (Z.to_nat k) name in
      let rest := skipn (Z.to_nat k + 1) name in
      let word := match cut_colon rest with Some (a, _) => a | None => rest end in
      do port <- atoi word;
      if autofree then scan_ip host (Copied true host) (Ok (Copied true host)) (Some port) name0
      else UB
    else if isbuf && negb (Nat.eqb (length name) 0) then
      scan_ip name (Copied true name)
        (if autofree then (if Nat.leb 8 (align2 (length name + 1)) then Ok (Wild (firstn 8 (name ++ [0%Z]))) else UB)
         else Ok (Copied true name)) None name0
    else
      let r := if autofree then (if isbuf then Wild [] else Own) else Null in
      scan_ip name r (Ok r) None name0.

(* ---- path components ---- *)
Definition slash (c : Z) : bool := (c =? 47)%Z.
(* drop the bytes at the end that satisfy [p] *)
Fixpoint strip (p : Z -> bool) (s : bytes) : bytes :=
  match s with
  | [] => []
  | c :: r => match strip p r with [] => if p c then [] else [c] | t => c :: t end
  end.
(* cut at the last byte that satisfies [p] *)
Fixpoint rcut (p : Z -> bool) (s : bytes) : option (bytes * bytes) :=
  match s with
  | [] => None
  | c :: r =>
    match rcut p r with
    | Some (a, b) => Some (c :: a, b)
    | None => if p c then Some ([], r) else None
    end
  end.
(* glibc dirname: the text left in the buffer (the static "." it may return is not used by
   pathinfo, which ignores the result). *)
Definition dirname_buffer (path : bytes) : bytes :=
  match strip slash path with
  | [] => if Nat.ltb (length path) 3 then path else [47%Z]
  | t =>
    match rcut slash t with
    | None => path
    | Some (a, _) =>
      match strip slash a with
      | [] => if Nat.eqb (length a) 1 then [47; 47]%Z else [47%Z]
      | u => u
      end
    end
  end.
(* glibc basename of <libgen.h>: the name and the buffer afterwards (slashes at the end are cut
   off in place). *)
Definition basename (path : bytes) : bytes * bytes :=
  match path with
  | [] => ([46%Z], [])
  | _ =>
    match strip slash path with
    | [] => ([47%Z], path)
    | t => match rcut slash t with Some (_, b) => (b, t) | None => (t, t) end
    end
  end.
(* arrays.c 1252-1280 pathinfo (not the Apple branch), 1128-1137 str_memrchr. *)
Record fileinfo := mkf { f_dirname : bytes; f_base : bytes; f_filename : bytes; f_extension : option bytes }.
Definition pathinfo (path : bytes) : fileinfo * bytes :=
  let d := dirname_buffer path in
  let (base, d') := basename d in
  let (file, path') := basename path in
  (mkf d' base file (option_map snd (rcut (fun c => (c =? 46)%Z) file)), path').
