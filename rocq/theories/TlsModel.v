(* Secure connections: async_tls.c 845-888 (tlserr, tls_poll, socket_is_secure), 895-913 (tls_socket_bind), 938-967
   (tls_bind), 969-1079 (accept, connect, dial, client handler), 1103-1170 (closing, reading, writing, flushing).
   libtls is given by its answers, in the order of the calls; a context is a number; using one that was freed, and asking for
   the error text of a null context, is undefined.  One call runs to its end before the next begins (other tasks may
   run while it waits, but do not touch its descriptor).  Configurations, certificates and log texts are left out. *)
From Verif Require Import Base DllModel EpollModel.
Local Open Scope Z_scope.

Definition bytes := list Z.
Definition ECONNREFUSED := 111.
Definition EPROTO := 71.
Definition EINVAL := 22.
Definition ENOMEM := 12.

(* what libtls answers: done (with a number of bytes), wait for reading or writing, failure; the code is what
   tls_error_code gives after the call, [eof]: whether ERR_get_error gives the unexpected end *)
Inductive answer := ADone (n : nat) | AWant (write : bool) (code : Z) | AFail (code : Z) (eof : bool).
Definition code_after (a : answer) : Z := match a with ADone _ => 0 | AWant _ c => c | AFail c _ => c end.
(* one call: its answer and what the loop reports if the task waits after it (AwaitModel.v) *)
Definition calls := list (answer * Z).

Inductive tact := TWaited (f : nat) (write : bool) | TFreed (c : nat) | TClosed (f : nat).

Record tw := {
  topen : list nat;              (* open descriptors *)
  tctx : nat -> option nat;      (* target->tls *)
  tev : nat -> Z;                (* target->events *)
  tlive : list nat;              (* contexts allocated and not freed *)
  tnext : nat;                   (* the next context *)
  tin : nat -> bytes;            (* per context: what the peer sent and was not read yet *)
  tout : nat -> bytes;           (* per context: what was taken for the peer *)
  tlog : list tact }.

Definition set_open (s : tw) v := {| topen := v; tctx := tctx s; tev := tev s; tlive := tlive s; tnext := tnext s; tin := tin s; tout := tout s; tlog := tlog s |}.
Definition set_ctx (s : tw) f v := {| topen := topen s; tctx := upd (tctx s) f v; tev := tev s; tlive := tlive s; tnext := tnext s; tin := tin s; tout := tout s; tlog := tlog s |}.
Definition set_tev (s : tw) f v := {| topen := topen s; tctx := tctx s; tev := upd (tev s) f v; tlive := tlive s; tnext := tnext s; tin := tin s; tout := tout s; tlog := tlog s |}.
Definition set_live (s : tw) v := {| topen := topen s; tctx := tctx s; tev := tev s; tlive := v; tnext := tnext s; tin := tin s; tout := tout s; tlog := tlog s |}.
Definition set_in (s : tw) c v := {| topen := topen s; tctx := tctx s; tev := tev s; tlive := tlive s; tnext := tnext s; tin := upd (tin s) c v; tout := tout s; tlog := tlog s |}.
Definition set_out (s : tw) c v := {| topen := topen s; tctx := tctx s; tev := tev s; tlive := tlive s; tnext := tnext s; tin := tin s; tout := upd (tout s) c v; tlog := tlog s |}.
Definition add_tlog (s : tw) e := {| topen := topen s; tctx := tctx s; tev := tev s; tlive := tlive s; tnext := tnext s; tin := tin s; tout := tout s; tlog := tlog s ++ [e] |}.
(* a new context, over which the peer will send [input] *)
Definition new_ctx (s : tw) (input : bytes) : tw :=
  {| topen := topen s; tctx := tctx s; tev := tev s; tlive := tnext s :: tlive s; tnext := S (tnext s); tin := upd (tin s) (tnext s) input;
     tout := upd (tout s) (tnext s) []; tlog := tlog s |}.

Definition is_live (s : tw) (c : nat) : bool := existsb (Nat.eqb c) (tlive s).
(* any call of libtls with this context *)
Definition use (s : tw) (c : nat) : outcome tw := if is_live s c then Ok s else UB.
Definition tls_free (s : tw) (c : nat) : outcome tw :=
  do _ <- use s c; Ok (add_tlog (set_live s (remove Nat.eq_dec c (tlive s))) (TFreed c)).
(* close(2); a number that is not open gives EBADF, which nobody looks at *)
Definition sys_close (s : tw) (f : nat) : tw := add_tlog (set_open s (remove Nat.eq_dec f (topen s))) (TClosed f).
Definition sys_open (s : tw) (f : nat) : tw := set_open s (f :: topen s).

(* 845-858; [ok] is rc 0, otherwise rc is -1 *)
Definition tlserr (ok : bool) (code : Z) : Z := if ok then 0 else if code =? 0 then - ECONNREFUSED else - EPROTO.

(* 860-868, where the answer was not done; true is 0, false EOF.  After the wait target->events is what was reported *)
Definition tls_poll (s : tw) (f : nat) (a : answer) (rep : Z) : tw * bool :=
  let s1 := match a with AWant w _ => set_tev (add_tlog s (TWaited f w)) f rep | _ => s end in
  (s1, (tev s1 f =? READ) || (tev s1 f =? WRITE)).

(* 978-986, 1018-1026: the handshake loop *)
Fixpoint handshake (f c : nat) (l : calls) (s : tw) : outcome (tw * Z) :=
  match l with
  | [] => Fuel
  | (a, rep) :: r =>
    do s <- use s c;
    match a with
    | ADone _ => Ok (s, 0)
    | _ =>
      let (s1, ok) := tls_poll s f a rep in
      let s2 := set_tev s1 f 0 in
      let rc := tlserr ok (code_after a) in
      if rc <? 0 then Ok (s2, rc) else handshake f c r s2
    end
  end.

(* 1103-1117 tls_closer *)
Definition tls_closer (s : tw) (f : nat) : outcome tw :=
  if Nat.eqb f 0 then Ok s
  else match tctx s f with
       | Some c => do s1 <- use s c; do s2 <- tls_free s1 c; Ok (set_ctx (sys_close s2 f) f None)
       | None => Ok (sys_close s f)
       end.

(* 969-1002 tls_accept.  [r]: what accept(2) gave, -1 on failure; [ok], [code]: tls_accept_socket, which leaves null in
   the entry when it fails; the entry of descriptor -1 is outside the table *)
Definition tls_accept (s : tw) (srv : nat) (r : Z) (input : bytes) (ok : bool) (code : Z) (l : calls) : outcome (tw * Z) :=
  let s := if 0 <=? r then sys_open s (Z.to_nat r) else s in
  if Nat.eqb srv 0 || (r =? 0) then Ok (s, -1)
  else if r <? 0 then UB
  else
    let f := Z.to_nat r in
    do x <- match tctx s srv with
            | None => Ok (s, 0)
            | Some sc =>
              do s <- use s sc;
              if ok then handshake f (tnext s) l (set_ctx (new_ctx s input) f (Some (tnext s)))
              else Ok (set_ctx s f None, tlserr false code)
            end;
    let (s, rc) := x in
    do s <- (if rc <? 0 then tls_closer s f else Ok s);
    Ok (s, if rc =? 0 then r else if rc =? - ECONNREFUSED then 0 else -1).

(* 1004-1043 async_tls_connect.  [cl]: tls_client gives a context; [conf]: tls_configure's result *)
Definition async_tls_connect (s : tw) (f : nat) (input : bytes) (cl : bool) (conf : Z) (ok : bool) (code : Z) (l : calls) : outcome (tw * Z) :=
  do x <- (if cl then
             let c := tnext s in
             let s := set_ctx (new_ctx s input) f (Some c) in
             if conf =? 0 then
               if ok then handshake f c l s else Ok (s, tlserr false code)
             else Ok (s, conf)
           else Ok (set_ctx s f None, - ENOMEM));
  let (s, rc) := x in
  do s <- (if rc <? 0 then
             if rc =? - ECONNREFUSED then
               match tctx s f with Some c => do s1 <- tls_free s c; Ok (set_ctx (sys_close s1 f) f None) | None => UB end
             else tls_closer s f
           else Ok s);
  Ok (s, rc).

(* 1045-1071 tls_dial.  [host]: the address is understood; [r]: what async_connect gave, [ev0] the events it left in the
   entry; [cfg]: a configuration was made; [ca]: the trusted certificates were read.  The message of a failure other
   than a refused connection takes the error text of the entry's context *)
Definition tls_dial (s : tw) (host : bool) (r ev0 : Z) (cfg ca : bool) (input : bytes) (cl : bool) (conf : Z) (ok : bool) (code : Z) (l : calls)
  : outcome (tw * Z) :=
  if negb host then Ok (s, - EINVAL)
  else if r <=? 0 then Ok (s, - EINVAL)
  else
    let f := Z.to_nat r in
    let s := set_tev (sys_open s f) f ev0 in
    if cfg && ca then
      do x <- async_tls_connect s f input cl conf ok code l;
      let (s, rc) := x in
      if rc =? 0 then Ok (s, r)
      else if rc =? - ECONNREFUSED then Ok (s, - EINVAL)
      else match tctx s f with Some c => do s <- use s c; Ok (s, - EINVAL) | None => UB end
    else Ok (s, - EINVAL).

(* 938-967 tls_bind, 895-913 tls_socket_bind.  [keys]: the key pair was read.  The closing deferred to the end of the
   task is a call of tls_closer of its own *)
Definition tls_socket_bind (s : tw) (f : nat) (keys srv conf : bool) : outcome (tw * Z) :=
  if keys then
    if srv then
      let s := set_ctx (new_ctx s []) f (Some (tnext s)) in
      if conf then Ok (s, Z.of_nat f) else Ok (s, - EINVAL)
    else Ok (set_ctx s f None, - EINVAL)
  else Ok (s, - EINVAL).
Definition tls_bind (s : tw) (host : bool) (r : Z) (cfg keys srv conf : bool) : outcome (tw * Z) :=
  if negb host then Ok (s, - EINVAL)
  else if r <=? 0 then Ok (s, - EINVAL)
  else
    let s := sys_open s (Z.to_nat r) in
    if cfg then tls_socket_bind s (Z.to_nat r) keys srv conf else Ok (s, - EINVAL).

(* 1127-1146 tls_reader: the count (or error) and the bytes put in the buffer.  Without a context it is async_read
   (IoModel.v), whose result is given *)
Fixpoint read_loop (f c max : nat) (l : calls) (s : tw) : outcome (tw * (Z * bytes)) :=
  match l with
  | [] => Fuel
  | (a, rep) :: r =>
    do s <- use s c;
    match a with
    | ADone n => let got := firstn (Nat.min n max) (tin s c) in
                 Ok (set_in s c (skipn (Nat.min n max) (tin s c)), (Z.of_nat (length got), got))
    | AFail _ true => Ok (s, (0, []))
    | _ =>
      let (s1, ok) := tls_poll s f a rep in
      let s2 := set_tev s1 f 0 in
      let rc := tlserr ok (code_after a) in
      if rc <? 0 then Ok (s2, (rc, [])) else read_loop f c max r s2
    end
  end.
Definition tls_reader (s : tw) (f max : nat) (plain : Z * bytes) (l : calls) : outcome (tw * (Z * bytes)) :=
  match tctx s f with None => Ok (s, plain) | Some c => read_loop f c max l s end.

(* 1148-1162 tls_writer: [buf] is the caller's memory, [len] 0 stands for the length of the text in it *)
Fixpoint write_loop (f c : nat) (data : bytes) (l : calls) (s : tw) : outcome (tw * Z) :=
  match l with
  | [] => Fuel
  | (a, rep) :: r =>
    do s <- use s c;
    match a with
    | ADone n => let k := Nat.min n (length data) in Ok (set_out s c (tout s c ++ firstn k data), Z.of_nat k)
    | _ =>
      let (s1, ok) := tls_poll s f a rep in
      let s2 := set_tev s1 f 0 in
      let rc := tlserr ok (code_after a) in
      if rc <? 0 then Ok (s2, rc) else write_loop f c data r s2
    end
  end.
Fixpoint strlen (buf : bytes) : outcome nat :=
  match buf with [] => UB | x :: r => if x =? 0 then Ok O else do n <- strlen r; Ok (S n) end.
Definition tls_writer (s : tw) (f : nat) (buf : bytes) (len : nat) (plain : Z) (l : calls) : outcome (tw * Z) :=
  do count <- (if Nat.eqb len 0 then strlen buf else Ok len);
  match tctx s f with
  | None => Ok (s, plain)
  | Some c => if (count <=? length buf)%nat then write_loop f c (firstn count buf) l s else UB
  end.

(* 870-873 *)
Definition socket_is_secure (s : tw) (f : Z) : bool := if f <=? 0 then false else match tctx s (Z.to_nat f) with Some _ => true | None => false end.

(* a program: calls with what the system and the library answer *)
Inductive top :=
| TAccept (srv : nat) (r : Z) (input : bytes) (ok : bool) (code : Z) (l : calls)
| TDial (host : bool) (r ev0 : Z) (cfg ca : bool) (input : bytes) (cl : bool) (conf : Z) (ok : bool) (code : Z) (l : calls)
| TBind (host : bool) (r : Z) (cfg keys srv conf : bool)
| TCloser (f : nat)
| TRead (f max : nat) (plain : Z * bytes) (l : calls)
| TWrite (f : nat) (buf : bytes) (len : nat) (plain : Z) (l : calls)
| TOpen (f : nat)              (* a plain socket or file is opened *)
| TClose (f : nat).            (* close(2) or async_close of a descriptor *)
Definition tstep (s : tw) (o : top) : outcome (tw * Z) :=
  match o with
  | TAccept srv r i ok c l => tls_accept s srv r i ok c l
  | TDial h r e cfg ca i cl conf ok c l => tls_dial s h r e cfg ca i cl conf ok c l
  | TBind h r cfg k sv cf => tls_bind s h r cfg k sv cf
  | TCloser f => do s <- tls_closer s f; Ok (s, 0)
  | TRead f m p l => do x <- tls_reader s f m p l; Ok (fst x, fst (snd x))
  | TWrite f b n p l => tls_writer s f b n p l
  | TOpen f => Ok (sys_open s f, Z.of_nat f)
  | TClose f => Ok (sys_close s f, 0)
  end.
Fixpoint trun (s : tw) (l : list top) : outcome (tw * list Z) :=
  match l with
  | [] => Ok (s, [])
  | o :: r => do x <- tstep s o; do y <- trun (fst x) r; Ok (fst y, snd x :: snd y)
  end.
Definition tw0 : tw :=
  {| topen := []; tctx := fun _ => None; tev := fun _ => 0; tlive := []; tnext := O; tin := fun _ => []; tout := fun _ => []; tlog := [] |}.
