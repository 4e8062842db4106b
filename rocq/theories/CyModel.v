(* Copying a file: /repo/src/os_unix.c 1436-1480 (copyfile, the branch for Linux), called by fs_copyfile,
   /repo/src/async_io.c 682-693, in a worker whose answer is passed on unchanged (area Fs).

   Files are lists of bytes.  The system's answers are arguments: whether the calls succeed, what the source holds
   at each call of sendfile (others may write to it meanwhile), and how much a call of sendfile transfers.  The
   branch for FreeBSD declares two variables twice and does not compile; it is left out.  Permissions and errno
   are left out, as is the wrapping of off_t beyond 2^63. *)
From Coq Require Import ZArith List Bool.
From Verif Require Import Base.
Import ListNotations.

Inductive ans := Err | Sent (n : nat).

Record sys := mkSys {
  open_ok : bool;            (* open(source, O_RDONLY) *)
  creat_ok : bool;           (* creat(destination, 0660) *)
  stat_ok : bool;            (* fstat(input) *)
  close_ok : bool;           (* the system could store what was written; told by close(output) only *)
  same : bool;               (* both names lead to one file *)
  src : nat -> list Z;       (* the source when it is opened (0) and at the k-th call of sendfile (k+1) *)
  ans_ : nat -> ans;         (* the k-th call of sendfile *)
  limit : nat }.             (* the most one call transfers, 2147479552 bytes on Linux *)

Inductive handle := In_ | Out_.

(* the answer, the destination (None: there is none), the source afterwards, descriptors opened and closed in order *)
Record res := mkRes { answer : Z; dest : option (list Z); source : list Z; opened : list handle; closed : list handle }.

(* sendfile(output, input, &off, SSIZE_MAX): the bytes written to the end of the output; the system adds their number
   to off *)
Definition send (s : sys) (k off : nat) : option (list Z) :=
  match ans_ s k with
  | Err => None
  | Sent n => Some (firstn (Nat.min n (limit s)) (skipn off (src s (S k))))
  end.

(* 1465-1473: [copied] is the offset handed to sendfile, which moves it, and then moved again by the answer *)
Fixpoint loop (fuel : nat) (s : sys) (k copied size : nat) (out : list Z) : outcome (Z * list Z * nat) :=
  match fuel with
  | O => Fuel
  | S f =>
      if Nat.ltb copied size then
        match send s k copied with
        | None => Ok ((-1)%Z, out, S k)
        | Some b =>
            let copied1 := copied + length b in        (* by the system *)
            let copied2 := copied1 + length b in       (* 1469 *)
            loop f s (S k) copied2 size (out ++ b)
        end
      else Ok (0%Z, out, k)
  end.

(* 1436-1480; old: the destination before.  Also given: the number of calls of sendfile *)
Definition copy (fuel : nat) (s : sys) (old : option (list Z)) : outcome (res * nat) :=
  if open_ok s then
    if creat_ok s then
      let size := if same s then 0 else length (src s 0) in
      do r <- (if stat_ok s then loop fuel s 0 0 size [] else Ok ((-1)%Z, [], 0));
      let '(a, out, n) := r in
      let kept := if close_ok s then out else [] in
      Ok (mkRes a (Some kept) (if same s then kept else src s n) [In_; Out_] [In_; Out_], n)
    else Ok (mkRes (-1)%Z old (src s 0) [In_] [In_], 0)
  else Ok (mkRes (-1)%Z old (src s 0) [] [], 0).
