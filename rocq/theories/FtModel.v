(* What kind of thing a descriptor is: events.c 985-1046 (events_fd_type), events.h 159-174 (fd_types).
   The numbers of the file kinds are those of Linux, macOS and the BSDs.  fd_types has no negative member; [neg] says whether the
   compiler takes a signed type for it nevertheless (gcc and clang: unsigned int; Microsoft's: int). *)
From Coq Require Import ZArith List Bool.
From Verif Require Import Base.
Import ListNotations.
Local Open Scope Z_scope.

Definition UNKNOWN : Z := 0.
Definition REG : Z := 1.
Definition DIR : Z := 2.
Definition CHR : Z := 3.
Definition BLK : Z := 4.
Definition FIFO : Z := 5.
Definition LNK : Z := 6.
Definition SOCK : Z := 7.

Definition as_enum (neg : bool) (z : Z) : Z := if neg then z else z mod 2 ^ 32.

(* 986-1008; st_mode as fstat gives it, None: fstat fails *)
Definition unix_type (neg : bool) (mode : option Z) : Z :=
  match mode with
  | None => as_enum neg (-1)
  | Some m =>
      let k := Z.land m 61440 in
      if k =? 24576 then BLK else if k =? 8192 then CHR else if k =? 16384 then DIR else if k =? 4096 then FIFO
      else if k =? 40960 then LNK else if k =? 32768 then REG else if k =? 49152 then SOCK else UNKNOWN
  end.

(* 1009-1044: what Windows knows about a handle; attrs: the attributes of a file, None if they cannot be had *)
Inductive handle := Char | Disk (attrs : option Z) | Pipe (named : bool).

Definition handle_type (h : option handle) : Z :=
  match h with
  | None => UNKNOWN
  | Some Char => CHR
  | Some (Disk None) => BLK
  | Some (Disk (Some a)) => if a =? 128 then REG else if a =? 16 then DIR else if a =? 1024 then LNK else UNKNOWN
  | Some (Pipe true) => FIFO
  | Some (Pipe false) => SOCK
  end.

(* 1010: the handle is the address of the parameter.  sys: the handles of the process; of: that of a descriptor; addr: where the
   parameter is *)
Definition windows_type (sys : Z -> option handle) (of : Z -> Z) (addr fd : Z) : Z := handle_type (sys addr).
