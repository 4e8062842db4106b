(* Names of hosts: async_gethostbyname, gethostbyname_ip (async_io.c 330-336, 485-493; future.c 90-92, 338-388;
   events.c 764-765, 2527, 2604, 2625-2650, 2711-2713) and async_inet_pton (async_io.c 338-376). *)
From Verif Require Import Base.
Local Open Scope Z_scope.

(* -- async_gethostbyname --
   A request is put into the queue of one of the futures' threads (which one is an argument, future.c 356-366); the thread
   calls the C library's gethostbyname, whose hostent is one variable of the process, and hands its address to the task.
   gethostbyname_ip writes the text of the hostent's first address into the buffer of the thread's future: that of the
   main thread, and the threads of a tasks pool are given the main thread's future (2527, 2604).  The address stands for
   its text.  Calls of the C library and of inet_ntop are single steps; a lookup that fails leaves the hostent as it was. *)
Record host := mkHost {
  queue : nat -> list (nat * nat);          (* thread: requests (task, name) *)
  static_ : option Z;                       (* the hostent's first address *)
  got : nat -> option bool;                 (* task: still waiting or never asked (None), an address (true) or NULL *)
  buf : option Z;                           (* the future's buffer *)
  used : list (nat * option Z) }.           (* history: task, text it read *)

Definition upd {A} (f : nat -> A) (k : nat) (v : A) : nat -> A := fun j => if Nat.eqb j k then v else f j.

Inductive op :=
| Ask (t n w : nat)        (* task t asks for name n; the request goes to thread w *)
| Work (w : nat)           (* thread w serves its next request *)
| Ip (t : nat)             (* task t calls gethostbyname_ip with what it got *)
| Use (t : nat).           (* task t reads the text it was given *)

Definition step (dns : nat -> option Z) (o : op) (s : host) : outcome host :=
  match o with
  | Ask t n w => Ok (mkHost (upd (queue s) w (queue s w ++ [(t, n)])) (static_ s) (upd (got s) t None) (buf s) (used s))
  | Work w =>
    match queue s w with
    | [] => Ok s
    | (t, n) :: r =>
      match dns n with
      | Some a => Ok (mkHost (upd (queue s) w r) (Some a) (upd (got s) t (Some true)) (buf s) (used s))
      | None => Ok (mkHost (upd (queue s) w r) (static_ s) (upd (got s) t (Some false)) (buf s) (used s))
      end
    end
  | Ip t =>
    match got s t with
    | None => Ok s                            (* the task does not run: it waits in queue_get *)
    | Some false => UB                        (* host->h_addr_list of NULL (486) *)
    | Some true => Ok (mkHost (queue s) (static_ s) (got s) (static_ s) (used s))
    end
  | Use t =>
    match got s t with
    | None => Ok s
    | Some _ => Ok (mkHost (queue s) (static_ s) (got s) (buf s) (used s ++ [(t, buf s)]))
    end
  end.
Fixpoint run (dns : nat -> option Z) (l : list op) (s : host) : outcome host :=
  match l with [] => Ok s | o :: r => do s' <- step dns o s; run dns r s' end.
Definition init : host := mkHost (fun _ => []) None (fun _ => None) None [].

(* -- async_inet_pton --
   An address: its family (sa_family of ai_addr) and its bytes (ai_addrlen of them).  getaddrinfo: a numeric name gives its
   address without asking; another name is asked for, unless AI_NUMERICHOST (4) is among the flags. *)
Record addr := mkAddr { family : Z; bytes_ : list Z }.
Record resolver := mkResolver { numeric : Z -> option (list addr); names : Z -> option (list addr) }.

(* the addresses, and whether a name was asked for *)
Definition getaddrinfo (r : resolver) (flags name : Z) : option (list addr) * bool :=
  match numeric r name with
  | Some l => (Some l, false)
  | None => if Z.testbit flags 2 then (None, false) else (names r name, true)
  end.

(* 364-371; dst: the bytes of memory from dst on *)
Fixpoint scan (af dstlen : Z) (l : list addr) (dst : list Z) (ret : Z) : outcome (Z * list Z) :=
  match l with
  | [] => Ok (ret, dst)
  | a :: r =>
    if (Z.of_nat (length (bytes_ a)) <=? dstlen) && (family a =? af) then
      if Nat.ltb (length dst) (length (bytes_ a)) then UB
      else scan af dstlen r (bytes_ a ++ skipn (length (bytes_ a)) dst) 1
    else scan af dstlen r dst ret
  end.

(* 338-376; AI_PASSIVE 1, AI_ALL [all_] (16 on Linux, 256 on Windows).  Result, memory, whether a name was asked for *)
Definition inet_pton (all_ : Z) (r : resolver) (af name : Z) (dst : list Z) (dstlen : Z) (resolve_src : bool) : outcome (Z * list Z * bool) :=
  let flags := if resolve_src then 0 else Z.lor all_ 1 in
  match getaddrinfo r flags name with
  | (None, q) => Ok (0, dst, q)
  | (Some l, q) => do x <- scan af dstlen l dst 0; Ok (x, q)
  end.
