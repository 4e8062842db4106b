(* Byte transfers: asynchronous write (async_io.c 316-328), file copy (os_unix.c 1483-1532), whole-file write
   and read (async_io.c 695-720), closing through the job pool (async_io.c 601-632, future.c 85-88). *)
From Verif Require Import Base.

Definition byte := Z.

(* What one system call does: move k units (the kernel moves no more than asked), or fail. *)
Inductive io := Moved (k : nat) | Again | Intr | Bad.

(* ---- async_write ---- *)
(* async_io.c 316-328.  [os] are the kernel's answers in order, [tot] the progress so far; the result is
   the bytes handed over and the return value.  write is passed [n - tot] bytes from [buf + tot]: reaching
   outside the buffer is UB.  async_wait suspends the task and has no effect here.  int is wide enough for
   n.  Intr is any failure other than EAGAIN. *)
Fixpoint awrite (buf : list byte) (n tot : nat) (os : list io) : outcome (list byte * Z) :=
  if tot <? n then
    if length buf <? n then UB
    else match os with
    | [] => Fuel
    | Again :: os' => awrite buf n tot os'
    | Intr :: _ | Bad :: _ => Ok ([], (-1)%Z)
    | Moved k :: os' =>
      let m := Nat.min k (n - tot) in
      if m =? 0 then Ok ([], Z.of_nat tot)
      else do r <- awrite buf n (tot + m) os'; Ok (firstn m (skipn tot buf) ++ fst r, snd r)
    end
  else Ok ([], Z.of_nat tot).
Definition async_write (buf : list byte) (n : nat) (os : list io) : outcome (list byte * Z) := awrite buf n 0 os.

(* ---- os_copyfile ---- *)
Definition CHUNK := 4096.
(* os_unix.c 1502-1510: write out the [rest] of the chunk; result: bytes written, success, answers left.
   The loop is do-while: a write happens before the test; [rest] is never empty on entry. *)
Fixpoint copy_out (rest : list byte) (ws : list io) : outcome (list byte * bool * list io) :=
  match ws with
  | [] => Fuel
  | Moved k :: ws' =>
    let m := Nat.min k (length rest) in
    match skipn m rest with
    | [] => Ok (firstn m rest, true, ws')
    | rest' => do r <- copy_out rest' ws'; let '(w, ok, ws2) := r in Ok (firstn m rest ++ w, ok, ws2)
    end
  | Intr :: ws' => copy_out rest ws'
  | Again :: _ | Bad :: _ => Ok ([], false, ws)
  end.
(* os_unix.c 1498-1512: read returns 0 exactly at end of file, otherwise at least one byte and at most the
   chunk; any failing read (also EINTR) leaves the loop with nread < 0.
   Result: bytes written and whether the end of the source was reached. *)
Fixpoint copy_loop (src : list byte) (rs ws : list io) : outcome (list byte * bool) :=
  match rs with
  | [] => Fuel
  | Moved k :: rs' =>
    match src with
    | [] => Ok ([], true)
    | _ :: _ =>
      let m := Nat.min (Nat.max k 1) (Nat.min CHUNK (length src)) in
      do r <- copy_out (firstn m src) ws;
      let '(w, ok, ws') := r in
      if ok then do r2 <- copy_loop (skipn m src) rs' ws'; Ok (w ++ fst r2, snd r2)
      else Ok (w, false)
    end
  | _ :: _ => Ok ([], false)
  end.
(* os_unix.c 1483-1532: the destination must not exist (O_EXCL); [close_ok] is the result of closing it.
   Result: return value and the destination afterwards. *)
Definition copyfile (src dst : option (list byte)) (rs ws : list io) (close_ok : bool) : outcome (Z * option (list byte)) :=
  match src, dst with
  | None, _ => Ok ((-1)%Z, dst)
  | Some _, Some _ => Ok ((-1)%Z, dst)
  | Some s, None =>
    do r <- copy_loop s rs ws;
    Ok (if snd r && close_ok then 0%Z else (-1)%Z, Some (fst r))
  end.

(* ---- whole-file write and read ---- *)
(* async_io.c 695-706 for a path whose file currently holds [old] (None: absent); [fd] is what open returns,
   [w] what the single write does, [close_ok] the close.  There is no O_TRUNC.  [text] is the C string
   without its terminator.  The int conversion of the length wraps at 2^32.  Result: the value returned
   (None: the task's status code, the failure path) and the file. *)
Definition overlay (new old : list byte) : list byte := new ++ skipn (length new) old.
Definition writefile (old : option (list byte)) (text : list byte) (fd : Z) (w : io) (close_ok : bool)
  : option Z * option (list byte) :=
  if (fd <? 0)%Z then (None, old)
  else
    let cur := match old with Some c => c | None => [] end in
    if (fd =? 0)%Z then (None, Some cur)
    else
      let len := wraps 32 (Z.of_nat (length text)) in
      let '(r, cur') :=
        if (0 <? len)%Z then
          match w with
          | Moved k => let m := Nat.min k (Z.to_nat len) in (Z.of_nat m, overlay (firstn m text) cur)
          | _ => ((-1)%Z, cur)
          end
        else (len, cur) in
      (if close_ok then Some r else None, Some cur').
(* async_io.c 708-720: None is NULL.  The buffer is zeroed and one byte longer than the size [stat] gave;
   the read is asked for the size modulo 2^32.  What the caller sees is the C string in the buffer; the
   result here is the bytes read, the rest of the buffer being zero. *)
Definition readfile (cur : option (list byte)) (fd : Z) (r : io) : option (list byte) :=
  match cur with
  | None | Some [] => None
  | Some c =>
    if (fd <=? 0)%Z then None
    else match r with
    | Moved k => Some (firstn (Nat.min k (Z.to_nat (wrapu 32 (Z.of_nat (length c))))) c)
    | _ => Some []
    end
  end.

(* ---- closing through the job pool ---- *)
(* [pools] futures; the next job goes to future [jobs mod pools] (future.c 85-88, 355-366), each remembering
   the last descriptor closed through it (-1 at first, events.c events_create_future) *)
Record cls := { is_open : Z -> bool; jobs : nat; last_fd : nat -> Z }.
Inductive clop :=
| COpen (fd : Z)     (* fs_open, the kernel returning fd *)
| CPlain (fd : Z)    (* a descriptor obtained any other way *)
| CJob               (* any other pool job *)
| CClose (fd : Z).   (* fs_close *)
Definition upz {A} (f : Z -> A) (k : Z) (v : A) : Z -> A := fun x => if (x =? k)%Z then v else f x.
Definition upn {A} (f : nat -> A) (k : nat) (v : A) : nat -> A := fun x => if x =? k then v else f x.
Definition cl_step (pools : nat) (s : cls) (o : clop) : cls * Z :=
  let me := jobs s mod pools in
  match o with
  | COpen fd => ({| is_open := upz (is_open s) fd true; jobs := jobs s + 1; last_fd := upn (last_fd s) me 0%Z |}, fd)
  | CPlain fd => ({| is_open := upz (is_open s) fd true; jobs := jobs s; last_fd := last_fd s |}, fd)
  | CJob => ({| is_open := is_open s; jobs := jobs s + 1; last_fd := last_fd s |}, 0%Z)
  | CClose fd =>
    if (last_fd s me =? fd)%Z then
      ({| is_open := is_open s; jobs := jobs s; last_fd := upn (last_fd s) me (-1)%Z |}, (-1)%Z)
    else
      ({| is_open := upz (is_open s) fd false; jobs := jobs s + 1; last_fd := upn (last_fd s) me fd |},
       if is_open s fd then 0%Z else (-1)%Z)
  end.
Fixpoint cl_run (pools : nat) (s : cls) (l : list clop) : cls * list Z :=
  match l with
  | [] => (s, [])
  | o :: k => let (s1, r) := cl_step pools s o in let (s2, rs) := cl_run pools s1 k in (s2, r :: rs)
  end.
Definition cls0 : cls := {| is_open := fun _ => false; jobs := 0; last_fd := fun _ => (-1)%Z |}.
