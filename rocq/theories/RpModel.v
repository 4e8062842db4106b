(* The allocator behind every allocation of the library: rpmalloc.c (installed by events.c 226 and
   except.c 718).  Default build: RPMALLOC_CONFIGURABLE 0, ENABLE_VALIDATE_ARGS 0, ENABLE_ASSERTS 0, thread
   and global cache on, 64-bit, pages of 4 KiB.  One heap; other threads only free (rpfree of another
   thread's block).  Each call runs to completion before the next one starts. *)
From Verif Require Import Base.
Local Open Scope Z_scope.

(* rpmalloc.c 464-500, 712-716 *)
Definition SPAN := 65536.
Definition PAGE := 4096.
Definition HEADER := 128.
Definition SMALL_LIMIT := 1024.
Definition LARGE_LIMIT := 63 * SPAN - HEADER.
Definition CLASSES := 126.
Definition K_LARGE := 126.
Definition K_HUGE := 2 ^ 32 - 1.
Definition wrap64 (x : Z) : Z := x mod 2 ^ 64.

(* ---- the table of size classes ---- *)

(* rpmalloc.c 521-529 (size_class_t): size of a block, number of blocks, index of the class used *)
Record size_class := mkclass { c_bs : Z; c_cnt : Z; c_idx : Z }.

Fixpoint set_nth {A} (l : list A) (n : nat) (x : A) : list A :=
  match l, n with
  | [], _ => []
  | _ :: r, O => x :: r
  | a :: r, S m => a :: set_nth r m x
  end.

(* rpmalloc.c 2600-2608: the loop that copies class i over the classes before it while the number of
   blocks is the same *)
Fixpoint merge_down (t : list size_class) (p : nat) (c : size_class) : list size_class :=
  match p with
  | O => t
  | S q =>
      match nth_error t q with
      | Some d => if c_cnt d =? c_cnt c then merge_down (set_nth t q c) q c else t
      | None => t
      end
  end.

(* rpmalloc.c 2590-2609 _rpmalloc_adjust_size_class, the block size passed in instead of stored before *)
Definition adjust_class (t : list size_class) (i : nat) (bs : Z) : list size_class :=
  let c := mkclass bs (((SPAN - HEADER) / bs) mod 2 ^ 16) (Z.of_nat i) in
  let t := set_nth t i c in
  if (65 <=? i)%nat then merge_down t i c else t.

(* rpmalloc.c 2808-2816: class 0 and the 64 small classes *)
Fixpoint small_classes (n : nat) (t : list size_class) : list size_class :=
  match n with
  | O => adjust_class t 0 16
  | S m => adjust_class (small_classes m t) (S m) (Z.of_nat (S m) * 16)
  end.

(* rpmalloc.c 2817-2820 *)
Definition medium_limit0 : Z := Z.min (Z.shiftr (SPAN - HEADER) 1) 32256.

(* rpmalloc.c 2821-2829: the medium classes; the limit shrinks when a class would pass it *)
Fixpoint medium_classes (n i : nat) (lim : Z) (t : list size_class) : Z * list size_class :=
  match n with
  | O => (lim, t)
  | S m =>
      let size := SMALL_LIMIT + (Z.of_nat i + 1) * 512 in
      if lim <? size then (SMALL_LIMIT + Z.of_nat i * 512, t)
      else medium_classes m (S i) lim (adjust_class t (65 + i) size)
  end.

Definition table0 : list size_class := repeat (mkclass 0 0 0) 126.
Definition tables : Z * list size_class := Eval vm_compute in medium_classes 61 0 medium_limit0 (small_classes 64 table0).
Definition MEDIUM_LIMIT : Z := Eval vm_compute in fst tables.
Definition table : list size_class := Eval vm_compute in snd tables.

Definition class_at (i : Z) : size_class := nth (Z.to_nat i) table (mkclass 0 0 0).

(* rpmalloc.c 2120, 2132-2133 *)
Definition small_class (size : Z) : Z := Z.shiftr (size + 15) 4.
Definition medium_class (size : Z) : Z := c_idx (class_at (65 + Z.shiftr (size - (SMALL_LIMIT + 1)) 9)).

(* ---- spans and the heap ---- *)

(* the span header, rpmalloc.c 585-620 (span_t).  The lists of free blocks are linked through the blocks;
   here they are lists of addresses, so a program that writes into freed blocks is not covered *)
Record span := mkspan {
  sp_kind : Z;           (* size_class *)
  sp_al : bool;          (* flags & SPAN_FLAG_ALIGNED_BLOCKS *)
  sp_bs : Z;             (* block_size *)
  sp_cnt : Z;            (* block_count *)
  sp_free : list Z;      (* free_list *)
  sp_limit : Z;          (* free_list_limit *)
  sp_used : Z;           (* used_count *)
  sp_lsize : Z;          (* list_size *)
  sp_defer : list Z;     (* free_list_deferred *)
  sp_n : Z }.            (* span_count: spans, or pages of a huge block *)

Definition set_al (s : span) b := mkspan (sp_kind s) b (sp_bs s) (sp_cnt s) (sp_free s) (sp_limit s) (sp_used s) (sp_lsize s) (sp_defer s) (sp_n s).
Definition set_n (s : span) n := mkspan (sp_kind s) (sp_al s) (sp_bs s) (sp_cnt s) (sp_free s) (sp_limit s) (sp_used s) (sp_lsize s) (sp_defer s) n.
Definition set_kind (s : span) k := mkspan k (sp_al s) (sp_bs s) (sp_cnt s) (sp_free s) (sp_limit s) (sp_used s) (sp_lsize s) (sp_defer s) (sp_n s).
Definition set_lists (s : span) f lim used ls d := mkspan (sp_kind s) (sp_al s) (sp_bs s) (sp_cnt s) f lim used ls d (sp_n s).

(* the heap, rpmalloc.c 640-680 (heap_t).  A span is named by its address divided by 64 KiB.  The caches
   (of the size class, of the thread, the global one) and the reserve are one pool of runs of spans
   (first, how many); which run is taken from it is left to the oracle [source] below *)
Record heap := mkheap {
  h_span : Z -> span;
  h_free : Z -> list Z;      (* size_class[c].free_list *)
  h_part : Z -> list Z;      (* size_class[c].partial_span: a linked list of spans *)
  h_pool : list (Z * Z);
  h_defer : list Z;          (* span_free_deferred *)
  h_next : Z }.              (* the next span mmap will return *)

Definition zupd {A} (f : Z -> A) (k : Z) (v : A) : Z -> A := fun x => if x =? k then v else f x.
Definition hs_span (h : heap) i s := mkheap (zupd (h_span h) i s) (h_free h) (h_part h) (h_pool h) (h_defer h) (h_next h).
Definition hs_free (h : heap) c l := mkheap (h_span h) (zupd (h_free h) c l) (h_part h) (h_pool h) (h_defer h) (h_next h).
Definition hs_part (h : heap) c l := mkheap (h_span h) (h_free h) (zupd (h_part h) c l) (h_pool h) (h_defer h) (h_next h).
Definition hs_pool (h : heap) l := mkheap (h_span h) (h_free h) (h_part h) l (h_defer h) (h_next h).
Definition hs_defer (h : heap) l := mkheap (h_span h) (h_free h) (h_part h) (h_pool h) l (h_next h).
Definition hs_next (h : heap) n := mkheap (h_span h) (h_free h) (h_part h) (h_pool h) (h_defer h) n.

Definition base (i : Z) : Z := SPAN * i.
(* (uintptr_t)p & _memory_span_mask *)
Definition span_of (p : Z) : Z := p / SPAN.
Definition is_nil {A} (l : list A) : bool := match l with [] => true | _ => false end.

(* rpmalloc.c 1349-1352 _rpmalloc_span_is_fully_utilized *)
Definition full (s : span) : bool := is_nil (sp_free s) && (sp_cnt s <=? sp_limit s).

(* rpmalloc.c 1290-1300: the loop linking blocks up to the end *)
Fixpoint init_loop (fuel : nat) (next bend bs : Z) : list Z :=
  match fuel with
  | O => []
  | S k => if next <? bend then next :: init_loop k (next + bs) bend bs else []
  end.

(* rpmalloc.c 1279-1304 free_list_partial_init: the blocks put in the list, after the first block.  The
   number of blocks set up is one more than the length *)
Definition partial_init (page_start start cnt bs : Z) : list Z :=
  if 1 <? cnt then
    let bend := start + bs * cnt in
    let bend := if bs <? PAGE / 2 then (if page_start + PAGE <? bend then page_start + PAGE else bend) else bend in
    start + bs :: init_loop (Z.to_nat cnt) (start + bs + bs) bend bs
  else [].

(* where a run of spans comes from: the k-th run of the pool, cut to what is needed or whole; mmap, with
   [extra] more spans than asked for going to the reserve (rpmalloc.c 1149-1184); or mmap failing *)
Inductive source := FromPool (k : nat) (cut : bool) | FromMap (extra : Z) | NoMemory.

Fixpoint drop_nth {A} (l : list A) (k : nat) : list A :=
  match l, k with
  | [], _ => []
  | _ :: r, O => r
  | a :: r, S m => a :: drop_nth r m
  end.

Definition map_spans (h : heap) (n extra : Z) : Z * Z * heap :=
  let i := h_next h in
  let h := hs_next h (i + n + Z.max 0 extra) in
  (i, n, hs_pool h (if 0 <? extra then (i + n, extra) :: h_pool h else h_pool h)).

(* rpmalloc.c 1784-1834 _rpmalloc_heap_extract_new_span and the functions under it.  Single spans are
   only ever cached one by one, so a request for one span always cuts *)
Definition take_spans (h : heap) (n : Z) (src : source) : option (Z * Z * heap) :=
  match src with
  | NoMemory => None
  | FromMap extra => Some (map_spans h n extra)
  | FromPool k cut =>
      match nth_error (h_pool h) k with
      | Some (i, m) =>
          if m <? n then Some (map_spans h n 0)
          else if (cut || (n =? 1)) && (n <? m) then Some (i, n, hs_pool h ((i + n, m - n) :: drop_nth (h_pool h) k))
          else Some (i, m, hs_pool h (drop_nth (h_pool h) k))
      | None => Some (map_spans h n 0)
      end
  end.

(* rpmalloc.c 1555-1590 _rpmalloc_heap_cache_adopt_deferred: spans other threads gave back.  A huge block
   among them is unmapped *)
Fixpoint adopted (sp : Z -> span) (l : list Z) : list (Z * Z) :=
  match l with
  | [] => []
  | i :: r =>
      if sp_kind (sp i) <? CLASSES then (i, 1) :: adopted sp r
      else if sp_kind (sp i) =? K_HUGE then adopted sp r
      else (i, sp_n (sp i)) :: adopted sp r
  end.
Definition adopt (h : heap) : heap := hs_defer (hs_pool h (adopted (h_span h) (h_defer h) ++ h_pool h)) [].

(* rpmalloc.c 1307-1336 _rpmalloc_span_initialize_new *)
Definition span_init_new (h : heap) (c i : Z) : Z * heap :=
  let bs := c_bs (class_at c) in
  let cnt := c_cnt (class_at c) in
  let start := base i + HEADER in
  let l := partial_init (base i) start cnt bs in
  let lim := 1 + Z.of_nat (length l) in
  let used := if lim <? cnt then lim else cnt in
  let h := hs_span h i (mkspan c false bs cnt [] lim used 0 [] 1) in
  let h := hs_free h c l in
  (start, if lim <? cnt then hs_part h c (i :: h_part h c) else h).

(* rpmalloc.c 2070-2114 _rpmalloc_allocate_from_heap_fallback: the part that uses a partial span *)
Definition use_partial (h : heap) (c i : Z) : Z * heap :=
  let s := h_span h i in
  let '(b, l, lim) :=
    match sp_free s with
    | b :: r => (b, r, sp_limit s)
    | [] =>
        let start := base i + HEADER + sp_limit s * sp_bs s in
        let l := partial_init (start / PAGE * PAGE) start (sp_cnt s - sp_limit s) (sp_bs s) in
        (start, l, sp_limit s + 1 + Z.of_nat (length l))
    end in
  let s1 :=
    if is_nil (sp_defer s) then set_lists s [] lim lim (sp_lsize s) []
    else set_lists s (sp_defer s) lim (lim - sp_lsize s) 0 [] in
  let h := hs_free (hs_span h i s1) c l in
  (b, if full s1 then hs_part h c (tl (h_part h c)) else h).

(* rpmalloc.c 2117-2139, 2070-2114: a block of size class c; [ad] says whether the spans given back by
   other threads are taken in on the way (they are unless a cache has a span first) *)
Definition alloc_class (h : heap) (c : Z) (ad : bool) (src : source) : option Z * heap :=
  match h_free h c with
  | b :: r => (Some b, hs_free h c r)
  | [] =>
      match h_part h c with
      | i :: _ => let '(b, h') := use_partial h c i in (Some b, h')
      | [] =>
          let h := if ad then adopt h else h in
          match take_spans h 1 src with
          | Some (i, _, h) => let '(b, h') := span_init_new h c i in (Some b, h')
          | None => (None, h)
          end
      end
  end.

(* rpmalloc.c 2142-2165 _rpmalloc_allocate_large *)
Definition large_spans (size : Z) : Z :=
  let size := wrap64 (size + HEADER) in
  Z.shiftr size 16 + (if Z.land size (SPAN - 1) =? 0 then 0 else 1).
Definition alloc_large (h : heap) (size : Z) (ad : bool) (src : source) : option Z * heap :=
  let h := if ad then adopt h else h in
  match take_spans h (large_spans size) src with
  | Some (i, m, h) => (Some (base i + HEADER), hs_span h i (set_n (set_kind (h_span h i) K_LARGE) m))
  | None => (None, h)
  end.

(* rpmalloc.c 2168-2190 _rpmalloc_allocate_huge: the page count is kept in 32 bits *)
Definition huge_pages (size : Z) : Z :=
  let size := wrap64 (size + HEADER) in
  Z.shiftr size 12 + (if Z.land size (PAGE - 1) =? 0 then 0 else 1).
(* whole spans taken up by a mapping of that many pages *)
Definition spans_of_pages (pages : Z) : Z := (pages * PAGE + SPAN - 1) / SPAN.
Definition alloc_huge (h : heap) (size : Z) (src : source) : option Z * heap :=
  let h := adopt h in
  let pages := huge_pages size in
  match src with
  | NoMemory => (None, h)
  | _ =>
      let i := h_next h in
      let h := hs_next h (i + spans_of_pages pages) in
      (Some (base i + HEADER), hs_span h i (set_n (set_kind (h_span h i) K_HUGE) (pages mod 2 ^ 32)))
  end.

(* rpmalloc.c 2193-2202 _rpmalloc_allocate; rpmalloc is this *)
Definition alloc (h : heap) (size : Z) (ad : bool) (src : source) : option Z * heap :=
  if size <=? SMALL_LIMIT then alloc_class h (small_class size) ad src
  else if size <=? MEDIUM_LIMIT then alloc_class h (medium_class size) ad src
  else if size <=? LARGE_LIMIT then alloc_large h size ad src
  else alloc_huge h size src.

(* rpmalloc.c 2204-2240: aligned allocation up to page alignment.  Larger alignments map pages of their
   own: [aligned_map] below *)
Definition round_header (size : Z) : Z :=
  if size =? 0 then HEADER else Z.land (wrap64 (size + (HEADER - 1))) (Z.lnot (HEADER - 1) mod 2 ^ 64).
Definition aligned_alloc (h : heap) (al size : Z) (ad : bool) (src : source) : option Z * heap :=
  if al <=? 16 then alloc h size ad src
  else if (al <=? HEADER) && (wrap64 (size + HEADER) <? MEDIUM_LIMIT) && (round_header size <=? wrap64 (size + al))
  then alloc h (round_header size) ad src
  else
    match alloc h (wrap64 (size + al)) ad src with
    | (None, h) => (None, h)
    | (Some p, h) =>
        if Z.land p (al - 1) =? 0 then (Some p, h)
        else
          let q := Z.ldiff p (al - 1) + al in
          let i := span_of q in
          (Some q, hs_span h i (set_al (h_span h i) true))
    end.

Fixpoint remove_z (x : Z) (l : list Z) : list Z :=
  match l with [] => [] | y :: r => if y =? x then r else y :: remove_z x r end.

(* rpmalloc.c 2385-2393: back to the start of the block when the span holds aligned blocks *)
Definition block_of (s : span) (i p : Z) : Z :=
  if sp_al s then p - (p - (base i + HEADER)) mod sp_bs s else p.

(* rpmalloc.c 2326-2352 _rpmalloc_deallocate_direct_small_or_medium *)
Definition free_direct (h : heap) (i b : Z) : heap :=
  let s := h_span h i in
  let c := sp_kind s in
  let used := if full s then sp_cnt s else sp_used s in
  let h := if full s then hs_part h c (i :: h_part h c) else h in
  let s := set_lists s (b :: sp_free s) (sp_limit s) (used - 1) (sp_lsize s) (sp_defer s) in
  let h := hs_span h i s in
  if sp_used s =? sp_lsize s
  then hs_pool (hs_part h c (remove_z i (h_part h c))) ((i, 1) :: h_pool h)
  else h.

(* rpmalloc.c 2364-2383, 2354-2361: a block of another thread's heap.  Linking the span in the deferred
   list of spans overwrites its free_list, which is empty then *)
Definition free_deferred (h : heap) (i b : Z) : heap :=
  let s := h_span h i in
  let s := set_lists s (sp_free s) (sp_limit s) (sp_used s) (sp_lsize s + 1) (b :: sp_defer s) in
  let h := hs_span h i s in
  if sp_lsize s =? sp_cnt s then hs_defer h (i :: h_defer h) else h.

(* rpmalloc.c 2463-2476 _rpmalloc_deallocate, 2402-2460: by the owner of the heap ([own]) or another
   thread.  Freed large runs go to the reserve or a cache: the pool *)
Definition free (h : heap) (own : bool) (p : Z) : heap :=
  let i := span_of p in
  let s := h_span h i in
  if sp_kind s <? CLASSES then
    (if own then free_direct h i (block_of s i p) else free_deferred h i (block_of s i p))
  else if negb own then hs_defer h (i :: h_defer h)
  else if sp_kind s =? K_LARGE then hs_pool h ((i, sp_n s) :: h_pool h)
  else h.

(* rpmalloc.c 3046-3072 rpmalloc_usable_size *)
Definition usable_size (h : heap) (p : Z) : Z :=
  let i := span_of p in
  let s := h_span h i in
  if sp_kind s <? CLASSES then sp_bs s - (p - (base i + HEADER)) mod sp_bs s
  else if sp_kind s =? K_LARGE then sp_n s * SPAN - (p - base i)
  else sp_n s * PAGE - (p - base i).

(* rpmalloc.c 2967 rpcalloc: the product is taken modulo 2^64 *)
Definition calloc (h : heap) (num size : Z) (ad : bool) (src : source) : option Z * heap :=
  alloc h (wrap64 (num * size)) ad src.

(* a fresh heap: nothing allocated.  The first span is not at address 0 *)
Definition empty_span : span := mkspan 0 false 0 0 [] 0 0 0 [] 0.
Definition heap0 : heap := mkheap (fun _ => empty_span) (fun _ => []) (fun _ => []) [] [] 1.

(* ---- reallocation ---- *)

Definition memory := Z -> Z.
(* memmove / memcpy of n bytes *)
Definition copy (m : memory) (dst src n : Z) : memory := fun x => if (dst <=? x) && (x <? dst + n) then m (src + (x - dst)) else m x.
(* what the allocator itself writes: the 8-byte links of free lists, at the given blocks; their values are
   not modelled *)
Definition scribble (m noise : memory) (cells : list Z) : memory :=
  fun x => if existsb (fun b => (b <=? x) && (x <? b + 8)) cells then noise x else m x.

(* rpmalloc.c 2484-2560 _rpmalloc_reallocate with oldsize 0 and no flags, which is rprealloc.  The caller
   owns the heap.  The size found when oldsize is 0 is the usable size.  The allocation may link blocks of
   its class; the links written are over-approximated by all blocks in the list of the class *)
Definition realloc_spans (size : Z) : Z :=
  let total := wrap64 (size + HEADER) in
  Z.shiftr total 16 + (if Z.land total (2 ^ 64 - SPAN - 1) =? 0 then 0 else 1).

Definition block_at (h : heap) (p : Z) : Z :=
  let i := span_of p in
  let s := h_span h i in
  if sp_kind s <? CLASSES then base i + HEADER + (p - (base i + HEADER)) / sp_bs s * sp_bs s else base i + HEADER.

Definition fits (h : heap) (p size : Z) : bool :=
  let s := h_span h (span_of p) in
  if sp_kind s <? CLASSES then size <=? sp_bs s
  else if sp_kind s =? K_LARGE then (realloc_spans size <=? sp_n s) && (usable_size h p / 2 <=? wrap64 (size + HEADER))
  else (huge_pages size <=? sp_n s) && (sp_n s / 2 <=? huge_pages size).

Definition grown (old size : Z) : Z :=
  let lower := wrap64 (old + Z.shiftr old 2 + Z.shiftr old 3) in
  if lower <? size then size else if old <? size then lower else size.

Definition kind_for (size : Z) : Z :=
  if size <=? SMALL_LIMIT then small_class size else if size <=? MEDIUM_LIMIT then medium_class size else K_LARGE.

Definition realloc (h : heap) (m noise : memory) (p size : Z) (ad : bool) (src : source) : option Z * heap * memory :=
  if p =? 0 then
    let '(r, h') := alloc h size ad src in (r, h', scribble m noise (h_free h' (kind_for size)))
  else
    let old := usable_size h p in
    if fits h p size then
      let b := block_at h p in
      (Some b, h, if p =? b then m else copy m b p old)
    else
      let new_size := grown old size in
      match alloc h new_size ad src with
      | (None, h') => (None, h', scribble m noise (h_free h' (kind_for new_size)))
      | (Some q, h1) =>
          let m1 := scribble m noise (h_free h1 (kind_for new_size)) in
          let m2 := copy m1 q p (if old <? new_size then old else new_size) in
          (Some q, free h1 true p, scribble m2 noise [block_at h1 p])
      end.

(* ---- alignments above the page size: pages of their own ---- *)

(* rpmalloc.c 926-1000 _rpmalloc_mmap_os: [raw] is what mmap returned; mappings of a span or more are moved
   up to the next span boundary (by a whole span when already there), the padding having been mapped too *)
Definition mmap_os (size raw : Z) : Z := if SPAN <=? size then raw + (SPAN - raw mod SPAN) else raw.

(* rpmalloc.c 2274-2308: the retry loop.  [raw k] is the address of the k-th mmap call, 0 when it fails *)
Fixpoint aligned_try (fuel : nat) (k : nat) (raw : nat -> Z) (al size pages limit : Z) : outcome (option (Z * Z * Z)) :=
  match fuel with
  | O => Fuel
  | S f =>
      let mapped := pages * PAGE in
      if raw k =? 0 then Ok None
      else
        let sp := mmap_os mapped (raw k) in
        let ptr := sp + HEADER in
        let ptr := if Z.land ptr (al - 1) =? 0 then ptr else Z.ldiff ptr (al - 1) + al in
        if (SPAN <=? ptr - sp) || (sp + mapped <? ptr + size) || negb (span_of ptr * SPAN =? sp)
        then (if limit <? pages + 1 then Ok None else aligned_try f (S k) raw al size (pages + 1) limit)
        else Ok (Some (ptr, sp, pages))
  end.

(* rpmalloc.c 2252-2272: checks and page counts; the answer is the pointer, the span and its pages *)
Definition aligned_map (fuel : nat) (raw : nat -> Z) (al size : Z) : outcome (option (Z * Z * Z)) :=
  if negb (Z.land al (al - 1) =? 0) then Ok None
  else if SPAN <=? al then Ok None
  else
    let extra := al / PAGE in
    let pages := 1 + size / PAGE + (if Z.land size (PAGE - 1) =? 0 then 0 else 1) in
    let pages := if pages <? extra then 1 + extra else pages in
    let limit := Z.max (SPAN / PAGE * 2) (pages * 2) in
    aligned_try fuel 0 raw al size pages limit.
