(* Small pieces: deadline arithmetic (os_unix.c 765-773, 880-886), socket timeouts (events.c 388-406),
   aligned allocation (events.c 725-734), allocator table (events.c 150-184, 225-227), start-up and
   shutdown flags (events.c 217-294, 296-367; os_unix.c 77-123; deque.c 148-177). *)
From Verif Require Import Base.
Local Open Scope Z_scope.

(* ---- deadlines ---- *)
(* os_unix.c 766-773: ms is a size_t, so tv_sec is added modulo 2^64 and converted back; tv_nsec is a long *)
Definition timespec_addms (sec nsec ms : Z) : Z * Z :=
  let sec1 := wraps 64 (sec + ms / 1000) in
  let nsec1 := wraps 64 (nsec + (ms mod 1000) * 1000 * 1000) in
  if 1000 * 1000 * 1000 <=? nsec1 then (wraps 64 (sec1 + 1), wraps 64 (nsec1 - 1000 * 1000 * 1000)) else (sec1, nsec1).
(* os_unix.c 880-886: msec is a uint32_t *)
Definition sleep_spec (msec : Z) : Z * Z := (msec / 1000, wrapu 32 (msec mod 1000 * 1000000)).
(* events.c 398-401: milliseconds is an int; the product is signed 32-bit *)
Definition tcp_timeval (ms : Z) : outcome (Z * Z) :=
  if (-(2 ^ 31) <=? ms * 1000) && (ms * 1000 <? 2 ^ 31) then Ok (Z.quot ms 1000, Z.rem (ms * 1000) 1000000) else UB.

(* ---- aligned allocation ---- *)
Definition PAGE := 4096.
(* events.c 725-734: [base] is what the allocator returned for the enlarged size, [rnd] is rand(); the
   result is the size asked for and the returned address; size_t and uintptr_t have 64 bits.  The cache line is 16, 32, 64, 128 or 256. *)
Definition memalign (line sz base rnd : Z) : Z * Z :=
  (wrapu 64 (sz + PAGE + line), wrapu 64 (base + rnd mod PAGE + line - 1) / line * line).

(* ---- allocator table ---- *)
Record alloctab := { a_malloc : nat; a_realloc : nat; a_calloc : nat; a_free : nat }.
Inductive which := Malloc | Realloc | Calloc | Free.
Record amem := { tab : alloctab; errno : Z; calls : list (which * nat) }.
Definition EINVAL := 22.

(* events.c 151-165; None = NULL *)
Definition set_allocator (s : amem) (m r c f : option nat) : amem * Z :=
  match m, r, c, f with
  | Some m, Some r, Some c, Some f => ({| tab := {| a_malloc := m; a_realloc := r; a_calloc := c; a_free := f |}; errno := errno s; calls := calls s |}, 0)
  | _, _, _, _ => ({| tab := tab s; errno := EINVAL; calls := calls s |}, -1)
  end.
(* events.c 167-184; [e] is what the called function leaves in errno *)
Definition call (s : amem) (w : which) (e : Z) : amem :=
  match w with
  | Malloc => {| tab := tab s; errno := e; calls := calls s ++ [(Malloc, a_malloc (tab s))] |}
  | Realloc => {| tab := tab s; errno := e; calls := calls s ++ [(Realloc, a_realloc (tab s))] |}
  | Calloc => {| tab := tab s; errno := e; calls := calls s ++ [(Calloc, a_calloc (tab s))] |}
  | Free =>
    let saved := errno s in
    let s1 := {| tab := tab s; errno := e; calls := calls s ++ [(Free, a_free (tab s))] |} in
    {| tab := tab s1; errno := saved; calls := calls s1 |}
  end.
Inductive aop := ASet (m r c f : option nat) | ACall (w : which) (e : Z) | AInit.
(* events.c 225-227 at the first start-up: the built-in allocator is installed unless NO_RPMALLOC *)
Definition do_aop (rp : option nat) (s : amem) (o : aop) : amem :=
  match o with
  | ASet m r c f => fst (set_allocator s m r c f)
  | ACall w e => call s w e
  | AInit => match rp with Some p => fst (set_allocator s (Some p) (Some p) (Some p) (Some p)) | None => s end
  end.
Definition do_aops (rp : option nat) (s : amem) (l : list aop) : amem := fold_left (do_aop rp) l s.

(* ---- start-up and shutdown ---- *)
(* global resources; true = allocated and its global pointer set.  The contents of the garbage list, worker
   queues and result entries are not modelled *)
Record core := {
  started : bool; shut : bool;
  os_inited : bool;
  io_table : bool;       (* fdTable *)
  io_clean : bool;       (* fdTable has been zeroed *)
  port : bool;           (* hIoCompPort *)
  fds : bool;            (* sys_event._fds_free_addr *)
  local : bool;          (* sys_event.local and its first queue *)
  gc : bool;
  results : bool;
  allocs : nat;          (* history: acquisitions *)
  frees : nat }.         (* history: releases *)

Definition core0 : core := {| started := false; shut := false; os_inited := false; io_table := false; io_clean := false; port := false; fds := false;
  local := false; gc := false; results := false; allocs := 0; frees := 0 |}.

Definition setf (s : core) a b := {| started := a; shut := b; os_inited := os_inited s; io_table := io_table s; io_clean := io_clean s; port := port s; fds := fds s;
  local := local s; gc := gc s; results := results s; allocs := allocs s; frees := frees s |}.
Definition seto (s : core) i t k p := {| started := started s; shut := shut s; os_inited := i; io_table := t; io_clean := k; port := p; fds := fds s;
  local := local s; gc := gc s; results := results s; allocs := allocs s; frees := frees s |}.
Definition setr (s : core) d l g r := {| started := started s; shut := shut s; os_inited := os_inited s; io_table := io_table s; io_clean := io_clean s; port := port s; fds := d;
  local := l; gc := g; results := r; allocs := allocs s; frees := frees s |}.
Definition addf (s : core) n := {| started := started s; shut := shut s; os_inited := os_inited s; io_table := io_table s; io_clean := io_clean s; port := port s; fds := fds s;
  local := local s; gc := gc s; results := results s; allocs := allocs s; frees := frees s + n |}.
Definition adda (s : core) n := {| started := started s; shut := shut s; os_inited := os_inited s; io_table := io_table s; io_clean := io_clean s; port := port s; fds := fds s;
  local := local s; gc := gc s; results := results s; allocs := allocs s + n; frees := frees s |}.
Definition b2n (b : bool) : nat := if b then 1 else 0.

(* os_unix.c 110-123: clear_pseudo_events (366-376) walks the table; a NULL or never-zeroed table is UB *)
Definition os_shutdown (s : core) : outcome core :=
  if os_inited s then
    if io_table s && io_clean s then Ok (addf (seto s false false false false) (b2n (port s) + 1)) else UB
  else Ok s.
(* os_unix.c 77-108; what may fail: the table allocation, the eventfd *)
Definition os_init (s : core) (table_ok port_ok : bool) : outcome (core * Z) :=
  if os_inited s then Ok (s, 0)
  else if table_ok then
    if port s then Ok (adda (seto s true true true true) 1, 0)
    else if port_ok then Ok (adda (seto s true true true true) 2, 0)
    else do s1 <- os_shutdown (adda (seto s true true false false) 1); Ok (s1, -1)
  else Ok (seto s true false false (port s), -1).
(* events.c 217-294 *)
Definition ev_init (s : core) (table_ok port_ok fds_ok : bool) : outcome (core * Z) :=
  if started s then Ok (s, 0)
  else
    let s0 := setf s true false in
    do r <- os_init s0 table_ok port_ok;
    let (s1, e) := r in
    if e =? -1 then Ok (s1, -1)
    else if fds_ok then Ok (adda (setr s1 true true true false) 3, 0)
    else do s2 <- os_shutdown (setr s1 false (local s1) (gc s1) false); Ok (s2, -1).
(* events.c 296-367; each release is of a set pointer *)
Definition ev_deinit (s : core) : outcome core :=
  if shut s then Ok s
  else
    let s0 := setf s (started s) true in
    let s1 := addf s0 (b2n (local s0) + b2n (gc s0) + b2n (fds s0) + b2n (results s0)) in
    do s2 <- os_shutdown (setr s1 false false false false);
    Ok (setf s2 false true).

(* CUse: some task result is created (needs a started library) *)
Inductive cop := CInit (table_ok port_ok fds_ok : bool) | CDeinit | CUse.
Definition do_cop (s : core) (o : cop) : outcome core :=
  match o with
  | CInit a b c => do r <- ev_init s a b c; Ok (fst r)
  | CDeinit => ev_deinit s
  | CUse => if fds s then Ok (adda (setr s (fds s) (local s) (gc s) true) (1 - b2n (results s))) else UB
  end.
Fixpoint do_cops (s : core) (l : list cop) : outcome core :=
  match l with [] => Ok s | o :: r => do s1 <- do_cop s o; do_cops s1 r end.
