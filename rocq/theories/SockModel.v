(* Opening sockets and datagrams: async_io.c 34-298 (async_socket, async_bind, async_connect), async_uds.c,
   async_udp.c.  The system calls are given by their results; one thread; memory is there. *)
From Verif Require Import Base StrModel.
Local Open Scope Z_scope.

Definition AF_UNIX := 1.
Definition AF_INET := 2.
Definition AF_INET6 := 10.

(* ---- opening ---- *)

(* what an opening call does, in order *)
Inductive sact :=
| SAlloc                              (* the record of a local socket *)
| SFree
| SOpen (fam : Z) (stream : bool) (fd : Z)
| SNonblock (fd : Z)
| SBind (fd fam : Z) (ok : bool)
| SListen (fd : Z) (ok : bool)
| SConnect (fd fam : Z) (ok : bool)   (* ok: connected when the wait is over *)
| SClose (fd : Z)
| STarget (fd : Z) (rec : bool).      (* the record (or none) is stored for the descriptor *)

(* async_io.c 34-103.  [unix]: protocol -1 or an address of family AF_UNIX; [stream]: protocol other than 0;
   [fd] socket's result, [b] and [l] whether bind and listen succeed.  The options set in between are ignored
   by the code whatever their result *)
Definition async_socket (unix stream : bool) (fam fd : Z) (b l : bool) : list sact * Z :=
  let a0 := if unix then [SAlloc] else [] in
  if fd <? 0 then (a0 ++ (if unix then [SFree] else []), -1)
  else
    let a1 := a0 ++ [SOpen fam stream fd; SBind fd fam b] in
    if negb b then (a1 ++ [SClose fd] ++ (if unix then [SFree] else []), -1)
    else if stream && negb l then (a1 ++ [SListen fd l; SClose fd], -1)
    else (a1 ++ (if stream then [SListen fd l] else []) ++ [SNonblock fd; STarget fd unix], fd).

(* async_io.c 105-171.  [parsed]: the family of the address read from the text, None when it is no address *)
Definition async_bind (unix stream : bool) (parsed : option Z) (fd : Z) (b l : bool) : list sact * Z :=
  let a0 := if unix then [SAlloc] else [] in
  match (if unix then Some AF_UNIX else parsed) with
  | None => (a0, -1)
  | Some fam =>
      if fd <? 0 then (a0 ++ (if unix then [SFree] else []), -1)
      else
        let a1 := a0 ++ [SOpen (if unix then AF_UNIX else AF_INET) stream fd; SBind fd fam b] in
        if negb b then (a1 ++ [SClose fd] ++ (if unix then [SFree] else []), -1)
        else (a1 ++ (if stream then [SListen fd l] else []) ++ [SNonblock fd; STarget fd unix], fd)
  end.

(* async_io.c 208-296.  [c]: connect returned 0 or a wait (EINPROGRESS, EAGAIN); [p]: getpeername succeeds
   after the wait *)
Definition async_connect (unix stream : bool) (parsed : option Z) (fd : Z) (c p : bool) : list sact * Z :=
  let a0 := if unix then [SAlloc] else [] in
  match (if unix then Some AF_UNIX else parsed) with
  | None => (a0, -1)
  | Some fam =>
      if fd <? 0 then (a0 ++ (if unix then [SFree] else []), -1)
      else
        let a1 := a0 ++ [SOpen fam stream fd; SNonblock fd; SConnect fd fam (c && p)] in
        if negb c then (a1 ++ [SClose fd] ++ (if unix then [SFree] else []), -1)
        else if p then (a1 ++ [STarget fd unix], fd)
        else (a1 ++ (if unix then [SFree] else []) ++ [SClose fd], -1)
  end.

(* ---- names of local sockets ---- *)

Definition PATHLEN := 108%nat.
(* strncpy(sun_path, address, 107) into a zeroed sun_path: the bytes of sun_path *)
Definition sun_path (path : bytes) : bytes :=
  let w := firstn (PATHLEN - 1) path in w ++ repeat 0 (PATHLEN - length w).
(* unix(7): the name given by an address of [len] bytes, two of which are the family: up to the first NUL *)
Fixpoint upto_nul (s : bytes) : bytes := match s with [] => [] | c :: r => if c =? 0 then [] else c :: upto_nul r end.
Definition name_of (path : bytes) (len : nat) : bytes := upto_nul (firstn (len - 2) (sun_path path)).
(* async_io.c 63-68, 148-153: bind is given sizeof(sun_path) bytes *)
Definition bound_name (path : bytes) : bytes := name_of path PATHLEN.
(* async_io.c 250-255: connect is given sizeof(struct sockaddr_un) bytes *)
Definition connect_name (path : bytes) : bytes := name_of path (PATHLEN + 2).

(* ---- datagrams ---- *)

(* the address pointer of a packet: none, that of the descriptor, or a copy of its own *)
Inductive aptr := ANone | AShared | AOwn (a : Z).
(* events_internal.h 531-539; an address is a number here; [palive]: not freed *)
Record pkt := { psock : Z; pflags : Z; pmsg : bytes; pset : bool; paddr : aptr; pip : option Z; palive : bool }.
(* the packet kept for each descriptor, its address, the packets made so far *)
Record ust := { dpkt : Z -> option nat; daddr : Z -> Z; pkts : list pkt }.
Definition ust0 : ust := {| dpkt := fun _ => None; daddr := fun _ => 0; pkts := [] |}.
Definition zupd {A} (f : Z -> A) (k : Z) (v : A) : Z -> A := fun x => if x =? k then v else f x.
Fixpoint set_nth (i : nat) (x : pkt) (l : list pkt) : list pkt :=
  match l, i with [], _ => [] | _ :: r, O => x :: r | y :: r, S j => y :: set_nth j x r end.

Definition get (s : ust) (i : nat) : outcome pkt :=
  match nth_error (pkts s) i with Some p => if palive p then Ok p else UB | None => UB end.
Definition put (s : ust) (i : nat) (p : pkt) : ust := {| dpkt := dpkt s; daddr := daddr s; pkts := set_nth i p (pkts s) |}.
Definition kept (s : ust) (fd : Z) : outcome (nat * pkt) :=
  match dpkt s fd with None => UB | Some i => do p <- get s i; Ok (i, p) end.

(* async_udp.c 4-35 once the socket is open: bound or connected to [a] *)
Definition udp_open (s : ust) (fd flags a : Z) : ust :=
  {| dpkt := zupd (dpkt s) fd (Some (length (pkts s))); daddr := zupd (daddr s) fd a;
     pkts := pkts s ++ [{| psock := fd; pflags := flags; pmsg := []; pset := false; paddr := ANone; pip := None; palive := true |}] |}.

(* async_udp.c 37-56 *)
Definition udp_to (s : ust) (fd a flags : Z) : outcome ust :=
  do r <- kept s fd;
  let '(i, p) := r in
  let p' := {| psock := psock p; pflags := flags; pmsg := pmsg p; pset := pset p; paddr := AShared; pip := pip p; palive := true |} in
  Ok {| dpkt := dpkt s; daddr := zupd (daddr s) fd a; pkts := set_nth i p' (pkts s) |}.

(* async_udp.c 58-68: where the bytes go: None is no address, the peer of a connected socket *)
Definition async_sendto (s : ust) (fd : Z) : outcome (option Z) :=
  do r <- kept s fd;
  match paddr (snd r) with ANone => Ok None | AShared => Ok (Some (daddr s fd)) | AOwn a => Ok (Some a) end.

(* async_udp.c 70-82 *)
Definition udp_send (s : ust) (i : nat) : outcome Z := do p <- get s i; Ok (daddr s (psock p)).

(* async_udp.c 95-140.  recvfrom gives a datagram and its sender, or fails (None).  Only the first 48 KiB fit,
   and an empty datagram gives no packet *)
Definition KB48 := 49152.
Definition cut48 (d : bytes) : bytes := if Z.of_nat (length d) <=? KB48 then d else firstn (Z.to_nat KB48) d.
Definition udp_recv (s : ust) (fd : Z) (m : option (bytes * Z)) : outcome (ust * option nat) :=
  do r <- kept s fd;
  let '(i, p) := r in
  let p' := {| psock := psock p; pflags := pflags p; pmsg := pmsg p; pset := pset p; paddr := AShared; pip := pip p; palive := true |} in
  match m with
  | None => Ok (put s i p', None)
  | Some (d, a) =>
      match cut48 d with
      | [] => Ok ({| dpkt := dpkt s; daddr := zupd (daddr s) fd a; pkts := set_nth i p' (pkts s) |}, None)
      | b =>
          let n := length (pkts s) in
          Ok ({| dpkt := zupd (dpkt s) fd (Some n); daddr := zupd (daddr s) fd a;
                 pkts := set_nth i p' (pkts s) ++
                   [{| psock := fd; pflags := pflags p; pmsg := b; pset := true; paddr := AOwn a; pip := None; palive := true |}] |}, Some n)
      end
  end.

(* async_udp.c 142-149: the message; the message and the address are given to the end of the task.  Giving the
   address of a descriptor away is undefined, as it is no block of its own *)
Definition udp_message (s : ust) (i : nat) : outcome (ust * bytes) :=
  do p <- get s i;
  if pset p then
    match paddr p with
    | AShared => UB
    | _ => Ok (put s i {| psock := psock p; pflags := pflags p; pmsg := pmsg p; pset := false; paddr := paddr p; pip := pip p; palive := true |}, pmsg p)
    end
  else Ok (s, pmsg p).

(* async_udp.c 155-160: the text is kept after the first call *)
Definition udp_ip (s : ust) (i : nat) : outcome (ust * Z) :=
  do p <- get s i;
  match pip p with
  | Some a => Ok (s, a)
  | None =>
      match paddr p with
      | ANone => UB
      | AShared => let a := daddr s (psock p) in
          Ok (put s i {| psock := psock p; pflags := pflags p; pmsg := pmsg p; pset := pset p; paddr := paddr p; pip := Some a; palive := true |}, a)
      | AOwn a => Ok (put s i {| psock := psock p; pflags := pflags p; pmsg := pmsg p; pset := pset p; paddr := paddr p; pip := Some a; palive := true |}, a)
      end
  end.

(* async_udp.c 176-188: the end of the task of a handler frees its packet *)
Definition udp_end (s : ust) (i : nat) : outcome ust :=
  do p <- get s i;
  Ok (put s i {| psock := psock p; pflags := pflags p; pmsg := pmsg p; pset := pset p; paddr := paddr p; pip := pip p; palive := false |}).

Inductive uop := URecv (fd : Z) (m : option (bytes * Z)) | UMessage (i : nat) | UIp (i : nat) | USend (i : nat) | UFlags (i : nat) | UEnd (i : nat).
Inductive ures := RNone | RPkt (i : option nat) | RMsg (b : bytes) | RAddr (a : Z).
Definition ustep (s : ust) (o : uop) : outcome (ust * ures) :=
  match o with
  | URecv fd m => do r <- udp_recv s fd m; Ok (fst r, RPkt (snd r))
  | UMessage i => do r <- udp_message s i; Ok (fst r, RMsg (snd r))
  | UIp i => do r <- udp_ip s i; Ok (fst r, RAddr (snd r))
  | USend i => do a <- udp_send s i; Ok (s, RAddr a)
  | UFlags i => do p <- get s i; Ok (s, RAddr (pflags p))
  | UEnd i => do s' <- udp_end s i; Ok (s', RNone)
  end.
Fixpoint urun (s : ust) (l : list uop) : outcome (ust * list ures) :=
  match l with
  | [] => Ok (s, [])
  | o :: r => do x <- ustep s o; do y <- urun (fst x) r; Ok (fst y, snd x :: snd y)
  end.

(* ---- which kind of socket ---- *)

(* the records of local sockets: freed at the end of the task that opened them (async_uds.c 4-24).  The table
   entry of a descriptor keeps its record when the descriptor is closed *)
Record kst := { kuds : Z -> option nat; kfreed : list nat; knext : nat }.
Inductive kop :=
| KOpen (fd : Z) (unix : bool)     (* opened with async_bind or async_connect *)
| KAccept (fd lfd : Z)             (* async_accept: the entry of the new descriptor is left as it is *)
| KUdsAccept (fd lfd : Z)          (* uds_accept: takes the record of the listener *)
| KTaskEnd (r : nat).              (* the task that opened record [r] ends *)
Definition kstep (s : kst) (o : kop) : kst :=
  match o with
  | KOpen fd true => {| kuds := zupd (kuds s) fd (Some (knext s)); kfreed := kfreed s; knext := S (knext s) |}
  | KOpen fd false => {| kuds := zupd (kuds s) fd None; kfreed := kfreed s; knext := knext s |}
  | KAccept _ _ => s
  | KUdsAccept fd l => {| kuds := zupd (kuds s) fd (kuds s l); kfreed := kfreed s; knext := knext s |}
  | KTaskEnd r => {| kuds := kuds s; kfreed := r :: kfreed s; knext := knext s |}
  end.
Definition krun (l : list kop) : kst := fold_left kstep l {| kuds := fun _ => None; kfreed := []; knext := 0%nat |}.
(* async_uds.c 59-63 *)
Definition socket_is_uds (s : kst) (fd : Z) : outcome bool :=
  if fd <=? 0 then Ok false
  else match kuds s fd with
       | None => Ok false
       | Some r => if existsb (Nat.eqb r) (kfreed s) then UB else Ok true
       end.
