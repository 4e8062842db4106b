(* Connected pairs of sockets on Windows (os_windows.c 1059-1168, 1423-1425: socketpair, os_pipe) and what
   opening a file asks of the system (os_windows.c 638-709: _os_open, os_open). *)
From Verif Require Import Base.

(* a socket number; None: INVALID_SOCKET.  SOCKET is unsigned, so the tests listener < 0 (1079) and
   acceptor < 0 (1119) are never true and the tests >= 0 of 1156-1164 always are; closing INVALID_SOCKET
   does nothing *)
Definition sock := option Z.
(* family, address, port of a sockaddr_in *)
Definition addr := (Z * Z * Z)%type.
Definition AF_INET : Z := 2.
Definition LOOPBACK : Z := 2130706433.  (* 127.0.0.1 *)
Definition EAGAIN : Z := 11.
Definition ECONNABORTED : Z := 106.

(* what the system answers; an error is the errno value of convert_wsa_error (937-1057), not 0 *)
Inductive ans (A : Type) := Good (a : A) | Bad (e : Z).
Arguments Good {A} _. Arguments Bad {A} _.
Record world := {
  w_listener : ans Z;          (* WSASocket *)
  w_bind : ans unit;
  w_listen : ans unit;
  w_connector : ans Z;         (* socket *)
  w_name1 : ans bool;          (* getsockname of the listener; whether the size is that of a sockaddr_in *)
  w_connect : ans unit;
  w_accept : ans (Z * addr * bool);  (* the socket, the address of its peer, the size *)
  w_name2 : ans (addr * bool)        (* getsockname of the connector *)
}.

(* sockets opened and closed, in order *)
Inductive act := Opened (s : Z) | Closed (s : Z).
(* the log, errno, the last error of the system, and the two sockets of the caller when 0 is returned *)
Record res := { acts : list act; errn : Z; pair_of : option (sock * sock) }.

Definition opened (a : ans Z) : list act := match a with Good s => [Opened s] | Bad _ => [] end.
Definition num (a : ans Z) : sock := match a with Good s => Some s | Bad _ => None end.
Definition closing (s : sock) : list act := match s with Some n => [Closed n] | None => [] end.

(* os_windows.c 1150-1167: l, c, a as they are when the label is reached; [last] is the error of the call
   that failed *)
Definition fail (log : list act) (errno last : Z) (l c a : sock) : res :=
  {| acts := log ++ closing l ++ closing c ++ closing a; errn := if (errno =? 0)%Z then last else errno; pair_of := None |}.
(* os_windows.c 1147-1148 *)
Definition abort_ (log : list act) (l c a : sock) : res := fail log ECONNABORTED 0 l c a.

Definition addr_eqb (x y : addr) : bool :=
  match x, y with (f, a, p), (g, b, q) => ((f =? g) && (a =? b) && (p =? q))%Z end.

(* os_windows.c 1070-1146 (sockets not NULL): [wl] the answer to WSASocket etc. *)
Definition socketpair (w : world) : res :=
  let l := num (w_listener w) in
  let log := opened (w_listener w) in
  match w_bind w with
  | Bad e => fail log 0 e l None None
  | Good _ =>
    match w_listen w with
    | Bad e => fail log 0 e l None None
    | Good _ =>
      match w_connector w with
      | Bad e => fail log 0 e l None None
      | Good cn =>
        let c := Some cn in
        let log := log ++ [Opened cn] in
        match w_name1 w with
        | Bad e => fail log 0 e l c None
        | Good false => abort_ log l c None
        | Good true =>
          (* os_geterror sets errno (1113, 937-1057) *)
          let e1 := match w_connect w with Bad e => e | Good _ => 0%Z end in
          if negb (e1 =? 0)%Z && negb (e1 =? EAGAIN)%Z then fail log e1 e1 l c None
          else
            let log := log ++ match w_accept w with Good (n, _, _) => [Opened n] | Bad _ => [] end in
            let a := match w_accept w with Good (n, _, _) => Some n | Bad _ => None end in
            (* a failed accept leaves listener_addr as bind got it *)
            let la := match w_accept w with Good (_, p, _) => p | Bad _ => (AF_INET, LOOPBACK, 0%Z) end in
            let sz := match w_accept w with Good (_, _, z) => z | Bad _ => true end in
            if negb sz then abort_ log l c a
            else
              let log := log ++ closing l in
              match w_name2 w with
              | Bad e => fail log e1 e l c a
              | Good (ca, z) =>
                if negb z || negb (addr_eqb la ca) then abort_ log l c a
                else {| acts := log; errn := e1; pair_of := Some (c, a) |}
              end
        end
      end
    end
  end.

(* os_windows.c 1423-1425 and async_io.h 38: the two int of the caller are written as two SOCKET;
   [wide]: SOCKET has 64 bits (64-bit Windows), the second one is outside the array *)
Definition os_pipe (wide : bool) (w : world) : outcome res :=
  match pair_of (socketpair w) with
  | Some _ => if wide then UB else Ok (socketpair w)
  | None => Ok (socketpair w)
  end.

(* ---- flags of open ---- *)
(* fcntl.h of the C runtime; compat/fcntl.h 24-30; os_windows.h 53-58 *)
Definition O_RDONLY : Z := 0.
Definition O_WRONLY : Z := 1.
Definition O_RDWR : Z := 2.
Definition O_CREAT : Z := 0x100.
Definition O_TRUNC : Z := 0x200.
Definition O_EXCL : Z := 0x400.
Definition O_DIRECTORY : Z := 0x2000.
Definition O_BINARY : Z := 0x8000.
Definition O_NOINHERIT : Z := 0x80.
Definition O_NONBLOCK : Z := 0x100000.
Definition O_CLOEXEC : Z := 0x200000.
Definition O_ASYNC : Z := 0x500000.
(* winnt.h, winbase.h *)
Definition GENERIC_READ : Z := 0x80000000.
Definition GENERIC_WRITE : Z := 0x40000000.
Definition FILE_LIST_DIRECTORY : Z := 1.
Definition FILE_FLAG_OVERLAPPED : Z := 0x40000000.
Definition FILE_FLAG_BACKUP_SEMANTICS : Z := 0x02000000.
Definition FILE_ATTRIBUTE_NORMAL : Z := 0x80.
Definition SECURITY_BITS : Z := 0x00110000.  (* SECURITY_SQOS_PRESENT | SECURITY_IDENTIFICATION *)
Definition CREATE_NEW : Z := 1.
Definition CREATE_ALWAYS : Z := 2.
Definition OPEN_EXISTING : Z := 3.
Definition TRUNCATE_EXISTING : Z := 5.

Definition has (f m : Z) : bool := negb (Z.land f m =? 0)%Z.
(* what CreateFileA is given: access, disposition, attributes *)
Record create := { access : Z; dispo : Z; attrs : Z }.
(* os_windows.c 638-672 *)
Definition create_args (mode : Z) (shared : bool) : create :=
  let a := 0%Z in
  let a := if has mode O_RDONLY || has mode O_RDWR then Z.lor a GENERIC_READ else a in
  let a := if has mode O_WRONLY || has mode O_RDWR then Z.lor a GENERIC_WRITE else a in
  let d := OPEN_EXISTING in
  let d := if has mode O_CREAT then CREATE_ALWAYS else d in
  let d := if has mode O_EXCL then CREATE_NEW else d in
  let d := if has mode O_TRUNC then Z.lor d TRUNCATE_EXISTING else d in
  let f := FILE_ATTRIBUTE_NORMAL in
  let a := if has mode O_DIRECTORY then Z.lor a FILE_LIST_DIRECTORY else a in
  let f := if has mode O_DIRECTORY then Z.lor f FILE_FLAG_BACKUP_SEMANTICS else f in
  let a := if has mode O_ASYNC || shared || has mode O_DIRECTORY then Z.lor a FILE_FLAG_OVERLAPPED else a in
  let f := if shared then Z.lor f SECURITY_BITS else f in
  {| access := a; dispo := d; attrs := f |}.

(* os_windows.c 680-709 when no pipe of that name is listened to: the system call made.  [ipc]: the path
   contains \pipe\ *)
Inductive opening := ByCreate (c : create) | ByCrt (flags : Z).
Definition os_open_call (flags : Z) (ipc : bool) : opening :=
  if ipc || has flags O_ASYNC || has flags O_DIRECTORY then ByCreate (create_args flags ipc)
  else
    let f := Z.lor flags O_BINARY in
    let f := if has f O_CLOEXEC then Z.lor (Z.ldiff f O_CLOEXEC) O_NOINHERIT else f in
    ByCrt (Z.ldiff f O_NONBLOCK).
