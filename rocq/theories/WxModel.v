(* Reading and writing at a position, and sending one file into another, on Windows (os_windows.c
   1332-1402: pread, pwrite, sendfile).  A descriptor here is one of the C runtime, open in binary mode
   (os_open adds O_BINARY, 700), seen as the bytes of its file and its position; os_read and os_write
   reach _read and _write for such a number (os_windows.c 350-358, 399-406).  One thread. *)
From Verif Require Import Base.

(* the bytes of the file and the position of the descriptor *)
Record fl := { dat : list Z; pos : Z }.

(* off_t is long, 32 bits on Windows: a position past this does not fit, and lseek fails (EINVAL) *)
Definition LONG_MAX : Z := 2147483647.

(* lseek(d, 0, SEEK_CUR); [ok]: the descriptor can be positioned at this time *)
Definition seek_cur (ok : bool) (f : fl) : option Z := if ok && (pos f <=? LONG_MAX)%Z then Some (pos f) else None.
(* lseek(d, off, SEEK_SET) *)
Definition seek_set (ok : bool) (f : fl) (off : Z) : option fl :=
  if ok && (0 <=? off)%Z then Some {| dat := dat f; pos := off |} else None.
(* _read(d, buf, n): the system gives at least a byte when there are some, unless it fails (None); [r]: the
   number it would like to give.  What is read, and the descriptor after it *)
Definition f_read (r : option nat) (f : fl) (n : nat) : fl * option (list Z) :=
  match r with
  | None => (f, None)
  | Some k =>
    let av := skipn (Z.to_nat (pos f)) (dat f) in
    let bs := firstn (Nat.min n (Nat.max 1 k)) av in
    ({| dat := dat f; pos := (pos f + Z.of_nat (length bs))%Z |}, Some bs)
  end.
(* the file after these bytes are put at p; what lies between its end and p reads as 0 *)
Definition f_put (d : list Z) (p : nat) (bs : list Z) : list Z :=
  match bs with
  | [] => d
  | _ => firstn p (d ++ repeat 0%Z (p - length d)) ++ bs ++ skipn (p + length bs) d
  end.
(* _write(d, bs): the system takes [w] bytes at most, or fails (None).  How many it took *)
Definition f_write (w : option nat) (f : fl) (bs : list Z) : fl * option nat :=
  match w with
  | None => (f, None)
  | Some k =>
    let b := firstn k bs in
    ({| dat := f_put (dat f) (Z.to_nat (pos f)) b; pos := (pos f + Z.of_nat (length b))%Z |}, Some (length b))
  end.

(* os_windows.c 1346-1358; a1 a2 a3: the three lseek; None stands for -1, otherwise the bytes stored in buf *)
Definition pread (a1 a2 a3 : bool) (r : option nat) (f : fl) (n : nat) (off : Z) : fl * option (list Z) :=
  match seek_cur a1 f with
  | None => (f, None)
  | Some c =>
    match seek_set a2 f off with
    | None => (f, None)
    | Some f1 =>
      match f_read r f1 n with
      | (f2, None) => (f2, None)
      | (f2, Some bs) => match seek_set a3 f2 c with None => (f2, None) | Some f3 => (f3, Some bs) end
      end
    end
  end.
(* os_windows.c 1332-1344; None stands for -1 *)
Definition pwrite (a1 a2 a3 : bool) (w : option nat) (f : fl) (bs : list Z) (off : Z) : fl * option nat :=
  match seek_cur a1 f with
  | None => (f, None)
  | Some c =>
    match seek_set a2 f off with
    | None => (f, None)
    | Some f1 =>
      match f_write w f1 bs with
      | (f2, None) => (f2, None)
      | (f2, Some k) => match seek_set a3 f2 c with None => (f2, None) | Some f3 => (f3, Some k) end
      end
    end
  end.

(* os_windows.c 1361 *)
Definition MAX_BUF : nat := Z.to_nat 65536.
(* os_windows.c 1378-1395; [cap]: buf_size; rr, ww: what the i-th _read and _write do; the two descriptors
   are of different files.  The result is the C variable [result] *)
Fixpoint send_loop (fuel : nat) (rr ww : nat -> option nat) (cap i : nat) (fo fi : fl) (len : nat) (res : Z) : outcome (fl * fl * Z) :=
  match len with
  | 0 => Ok (fo, fi, res)
  | _ =>
    match fuel with
    | 0 => Fuel
    | S k =>
      match f_read (rr i) fi (if len <? cap then len else cap) with
      | (fi', None) => Ok (fo, fi', (-1)%Z)
      | (fi', Some []) => Ok (fo, fi', res)
      | (fi', Some bs) =>
        match f_write (ww i) fo bs with
        | (fo', None) => Ok (fo', fi', (-1)%Z)
        | (fo', Some n) => send_loop k rr ww cap (S i) fo' fi' (len - length bs) (res + Z.of_nat n)%Z
        end
      end
    end
  end.
(* os_windows.c 1360-1402.  [mem]: whether the buffer could be allocated; [sk]: whether _lseeki64 works;
   [off]: *offset, None when the pointer is NULL.  The files after it, *offset after it, the result *)
Definition sendfile (fuel : nat) (mem sk : bool) (rr ww : nat -> option nat) (fo fi : fl) (off : option Z) (len : nat) : outcome (fl * fl * Z * Z) :=
  let cap := if len <? MAX_BUF then len else MAX_BUF in
  match mem, off with
  | false, None => Ok (fo, fi, 0%Z, (-1)%Z)
  | false, Some o => Ok (fo, fi, o, (-1)%Z)
  | true, None => UB
  | true, Some o =>
    if (o =? -1)%Z then
      do r <- send_loop fuel rr ww cap 0 fo fi len 0%Z; Ok (fst (fst r), snd (fst r), 0%Z, snd r)
    else
      match seek_set sk fi o with
      | None => Ok (fo, fi, (-1)%Z, (-1)%Z)
      | Some fi1 => do r <- send_loop fuel rr ww cap 0 fo fi1 len 0%Z; Ok (fst (fst r), snd (fst r), o, snd r)
      end
  end.
