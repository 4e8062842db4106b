(* Values of threads with destructors on 32-bit Windows: rpmalloc.c 358-416 (and the same code once more in
   os_windows.c 1192-1250), called when a thread that used the allocator ends (rpmalloc.c 856-868), and the allocator's
   own use of a key (rpmalloc.c 245, 757-762, 816-824, 2799-2801, 2890-2901).
   TlsAlloc gives a number that is free, or fails (0xFFFFFFFF, here None); the values of a key are null in all threads
   when it is made and when it is freed; TlsGetValue of 0xFFFFFFFF is null.  [slots]: EMULATED_THREADS_TSS_DTOR_SLOTNUM.
   Null is 0; destructors and threads are numbers. *)
From Verif Require Import Base.

Record tls := mkTls {
  owned : list nat;                         (* keys the system has given out *)
  table : list (option nat * nat);          (* impl_tls_dtor_tbl up to the first free slot: key, destructor *)
  vals : nat -> nat -> nat;                 (* thread, key: value *)
  calls : list (nat * nat * nat) }.         (* history: thread, destructor, value *)

Definition zero (f : nat -> nat -> nat) (k : nat) : nat -> nat -> nat := fun t j => if j =? k then 0 else f t j.
Definition store (f : nat -> nat -> nat) (t k v : nat) : nat -> nat -> nat := fun u j => if (u =? t) && (j =? k) then v else f u j.
Definition tls_free (k : nat) (s : tls) : tls := mkTls (filter (fun j => negb (j =? k)) (owned s)) (table s) (zero (vals s) k) (calls s).

(* 392-404 with 364-378; true: 0 is returned *)
Definition create (slots : nat) (got : option nat) (dtor : option nat) (s : tls) : bool * tls :=
  let s1 := match got with Some k => mkTls (k :: owned s) (table s) (zero (vals s) k) (calls s) | None => s end in
  let ok := match got with Some _ => true | None => false end in
  match dtor with
  | None => (ok, s1)
  | Some d =>
    if length (table s1) =? slots then (false, match got with Some k => tls_free k s1 | None => s1 end)
    else (ok, mkTls (owned s1) (table s1 ++ [(got, d)]) (vals s1) (calls s1))
  end.

(* 406-408 *)
Definition delete (k : nat) (s : tls) : tls := tls_free k s.
(* 414-416 *)
Definition set (t k v : nat) (s : tls) : tls := mkTls (owned s) (table s) (store (vals s) t k v) (calls s).
Definition get (t k : nat) (s : tls) : nat := vals s t k.

(* 380-390 *)
Fixpoint invoke (t : nat) (l : list (option nat * nat)) (s : tls) : tls :=
  match l with
  | [] => s
  | (k, d) :: r =>
    let v := match k with Some k => vals s t k | None => 0 end in
    invoke t r (if v =? 0 then s else mkTls (owned s) (table s) (vals s) (calls s ++ [(t, d, v)]))
  end.
Definition thread_end (t : nat) (s : tls) : tls := invoke t (table s) s.

Inductive op := Create (got dtor : option nat) | Delete (k : nat) | Set_ (t k v : nat) | End (t : nat).
Definition do_op (slots : nat) (o : op) (s : tls) : tls :=
  match o with Create g d => snd (create slots g d s) | Delete k => delete k s | Set_ t k v => set t k v s | End t => thread_end t s end.
Fixpoint run (slots : nat) (l : list op) (s : tls) : tls := match l with [] => s | o :: r => run slots r (do_op slots o s) end.
Definition init : tls := mkTls [] [] (fun _ _ => 0) [].

(* The allocator: _memory_thread_heap is 0 from the start (245) and no key is made for it (2799-2801).
   rpmalloc_thread_initialize (2890-2901) with a heap [h] of its own to take; the thread's heap afterwards *)
Definition thread_heap (t h : nat) (s : tls) : nat * tls := if get t 0 s =? 0 then (h, set t 0 h s) else (get t 0 s, s).
