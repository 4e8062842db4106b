(* Which thread works in which heap of the allocator: any number of threads that allocate, free, give their heap back
   and exit, as interleavings of single memory accesses (sequentially consistent).  rpmalloc.c 757-762
   (get_thread_heap_raw), 816-824 (set_thread_heap), 826-830 (rpmalloc_set_main_thread), 1847-1853
   (_rpmalloc_heap_orphan), 1856-1911 (_rpmalloc_heap_allocate_new), 1930-2005 (_rpmalloc_heap_extract_orphan,
   _rpmalloc_heap_allocate, _rpmalloc_heap_release), 2387-2403 (the owner test of a free), 2611-2625 and 2783-2841
   (rpmalloc_initialize, rpmalloc_initialize_config), 2890-2912 (rpmalloc_thread_initialize,
   rpmalloc_thread_finalize), 3138-3149 (rpmalloc_init), 3165-3188 (rp_malloc, rp_free).
   Heaps are numbers; what is done inside a heap is one place (RpConcModel and SmModel are about that).  Left out:
   rpmalloc_finalize, the table of all heaps, statistics, reserved spans, 'finalize'.  A thread's identity
   (get_thread_id) is its number. *)
From Coq Require Import List Bool Arith.
From Verif Require Import Base.
Import ListNotations.

(* where a thread is; the comment gives the access that comes next *)
Inductive pc :=
| Idle
| M0                           (* 3139: read _rpmalloc_initialized *)
| M1                           (* 2613: read it again *)
| M2                           (* 2621: and again *)
| M3                           (* 2625: store 1 *)
| S0                           (* 2627-2833: set everything up *)
| M4                           (* 3141: read the thread's heap *)
| M5                           (* 2891: read the thread's heap *)
| A0                           (* 1939: compare and swap the lock *)
| A1                           (* 1931: read the list of orphans *)
| A2 (o : option nat)          (* 1932: store its tail *)
| A3                           (* 1944: memory for new heaps *)
| A4 (h j e : nat)             (* 1905-1907: heaps j..e-1 still to be linked; 1848-1851: owner, link *)
| A4w (h j e : nat)            (* 1852: store the list *)
| A5 (o : option nat)          (* 1945: release the lock *)
| A6 (h : nat)                 (* 1947: spans freed by others are adopted; 817-821: store the thread's heap *)
| A7 (h : nat)                 (* 823: store the owner *)
| Run (h : nat)                (* 2932-2933: allocation in the heap *)
| Dir (g : nat)                (* 2327-2352: a block is freed in its heap *)
| R0                           (* 2905: read the thread's heap *)
| R1 (h : nat)                 (* 1957-1985: spans are adopted and given to the global cache *)
| R2 (h : nat)                 (* 1987-1988: clear the thread's heap *)
| R3 (h : nat)                 (* 1991-1994: compare and swap the lock, unless this is the main thread *)
| R4 (h : nat)                 (* 1848: store no owner *)
| R5 (h : nat)                 (* 1851: link *)
| R6 (h : nat)                 (* 1852: store the list *)
| R7                           (* 1996: release the lock *)
| R8.                          (* 2908: clear the thread's heap *)

(* what a thread with nothing to do does next; what mmap gives *)
Inductive choice :=
| Malloc                       (* rp_malloc *)
| Free (g : nat)               (* rpfree of a block that lies in a span of heap g *)
| GiveUp                       (* rpmalloc_thread_finalize, also at the end of rp_free *)
| Exit                         (* the thread ends: the key's destructor, 2793 *)
| Mem (k : nat)                (* memory for 1 + k heaps *)
| NoMem.                       (* mmap failed *)

Record st := mkSt {
  inited : bool;               (* _rpmalloc_initialized *)
  key : bool;                  (* the set-up is complete: the key of the thread's heap exists, sizes are set *)
  lock : bool;                 (* _memory_global_lock *)
  hd : option nat;             (* _memory_orphan_heaps *)
  nxt : nat -> option nat;     (* next_orphan *)
  owner : nat -> option nat;   (* owner_thread; None: -1 or 0 *)
  tls : nat -> option nat;     (* _memory_thread_heap of each thread *)
  fresh : nat;                 (* heaps made so far *)
  at_ : nat -> pc }.

Definition upd {A} (f : nat -> A) (x : nat) (v : A) (y : nat) : A := if Nat.eqb y x then v else f y.

Definition go (s : st) (t : nat) (p : pc) : st := mkSt (inited s) (key s) (lock s) (hd s) (nxt s) (owner s) (tls s) (fresh s) (upd (at_ s) t p).
Definition set_lock (s : st) b := mkSt (inited s) (key s) b (hd s) (nxt s) (owner s) (tls s) (fresh s) (at_ s).
Definition set_hd (s : st) o := mkSt (inited s) (key s) (lock s) o (nxt s) (owner s) (tls s) (fresh s) (at_ s).
Definition set_nxt (s : st) h o := mkSt (inited s) (key s) (lock s) (hd s) (upd (nxt s) h o) (owner s) (tls s) (fresh s) (at_ s).
Definition set_owner (s : st) h o := mkSt (inited s) (key s) (lock s) (hd s) (nxt s) (upd (owner s) h o) (tls s) (fresh s) (at_ s).
Definition set_tls (s : st) t o := mkSt (inited s) (key s) (lock s) (hd s) (nxt s) (owner s) (upd (tls s) t o) (fresh s) (at_ s).
Definition set_fresh (s : st) n := mkSt (inited s) (key s) (lock s) (hd s) (nxt s) (owner s) (tls s) n (at_ s).

(* One access by thread t; [main] is the thread that called rpmalloc_set_main_thread.  A thread that finds the lock
   taken stays where it is (it spins).  Using the key before the set-up is undefined. *)
Definition step (main : option nat) (t : nat) (c : choice) (s : st) : outcome st :=
  match at_ s t with
  | Idle =>
    match c with
    | Malloc => Ok (go s t M0)
    | Free g => Ok (match owner s g with Some u => if Nat.eqb u t then go s t (Dir g) else s | None => s end)
    | GiveUp => Ok (go s t R0)
    | Exit => match tls s t with Some h => Ok (go (set_tls s t None) t (R1 h)) | None => Ok s end
    | _ => Ok s
    end
  | M0 => Ok (go s t (if inited s then M4 else M1))
  | M1 => Ok (go s t (if inited s then M5 else M2))
  | M2 => Ok (go s t (if inited s then M5 else M3))
  | M3 => Ok (go (mkSt true (key s) (lock s) (hd s) (nxt s) (owner s) (tls s) (fresh s) (at_ s)) t S0)
  | S0 => Ok (go (mkSt (inited s) true false None (nxt s) (owner s) (fun _ => None) (fresh s) (at_ s)) t M5)
  | M4 => if key s then Ok (go s t (match tls s t with Some h => Run h | None => M5 end)) else UB
  | M5 => if key s then Ok (go s t (match tls s t with Some h => Run h | None => A0 end)) else UB
  | A0 => Ok (if lock s then s else go (set_lock s true) t A1)
  | A1 => Ok (go s t (A2 (hd s)))
  | A2 (Some h) => Ok (go (set_hd s (nxt s h)) t (A5 (Some h)))
  | A2 None => Ok (go (set_hd s None) t A3)
  | A3 => match c with
          | Mem k => Ok (go (set_fresh s (fresh s + 1 + k)) t
                           (if Nat.eqb k 0 then A5 (Some (fresh s)) else A4 (fresh s) (fresh s + 1) (fresh s + 1 + k)))
          | NoMem => Ok (go s t (A5 None))
          | _ => Ok s
          end
  | A4 h j e => Ok (go (set_nxt (set_owner s j None) j (hd s)) t (A4w h j e))
  | A4w h j e => Ok (go (set_hd s (Some j)) t (if Nat.ltb (S j) e then A4 h (S j) e else A5 (Some h)))
  | A5 o => Ok (go (set_lock s false) t (match o with Some h => A6 h | None => Idle end))
  | A6 h => Ok (go (set_tls s t (Some h)) t (A7 h))
  | A7 h => Ok (go (set_owner s h (Some t)) t (Run h))
  | Run h => Ok (go s t Idle)
  | Dir g => Ok (go s t Idle)
  | R0 => if key s then Ok (go s t (match tls s t with Some h => R1 h | None => R8 end)) else UB
  | R1 h => Ok (go s t (R2 h))
  | R2 h => Ok (go (match tls s t with Some g => if Nat.eqb g h then set_tls s t None else s | None => s end) t (R3 h))
  | R3 h => Ok (if match main with Some m => Nat.eqb m t | None => false end then go s t (R4 h)
                else if lock s then s else go (set_lock s true) t (R4 h))
  | R4 h => Ok (go (set_owner s h None) t (R5 h))
  | R5 h => Ok (go (set_nxt s h (hd s)) t (R6 h))
  | R6 h => Ok (go (set_hd s (Some h)) t R7)
  | R7 => Ok (go (set_lock s false) t R8)
  | R8 => Ok (go (set_tls s t None) t Idle)
  end.

Fixpoint run (main : option nat) (l : list (nat * choice)) (s : st) : outcome st :=
  match l with
  | [] => Ok s
  | (t, c) :: r => do s1 <- step main t c s; run main r s1
  end.

(* before anything was called *)
Definition cold : st := mkSt false false false None (fun _ => None) (fun _ => None) (fun _ => None) 0 (fun _ => Idle).

(* the thread is working inside the heap: allocating, freeing, adopting, giving spans away *)
Definition inside (s : st) (t h : nat) : Prop :=
  match at_ s t with Run g | Dir g | A6 g | R1 g => g = h | _ => False end.
