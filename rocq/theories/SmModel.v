(* Where the memory of the allocator comes from and goes: runs of spans, mapped as "super spans" whose first
   span (the master) counts what is left of them, kept in reserves, in the caches of threads and in global
   caches, and given back to the system.  rpmalloc.c 1045-1268, 1418-1534, 1547-1590, 1656-1834, 1855-1928,
   1959-2059, 2402-2443, 2846-2880.  A span (64 KiB) is named by its address divided by its size.
   Simplifications: every call is one step (the locks of the global caches and of the reserve are held during
   the parts that touch them); counters are unbounded; statistics are left out; the number of bytes mapped
   before the first span for alignment is modelled apart (at the end). *)
From Coq Require Import ZArith List Lia Bool.
From Verif Require Import Base.
Import ListNotations.
Local Open Scope Z_scope.

(* rpmalloc.c 572-620 span_t: the flags, offset_from_master, span_count, total_spans, remaining_spans *)
Record hdr := mkhdr { h_master : bool; h_sub : bool; h_off : Z; h_cnt : Z; h_total : Z; h_remain : Z }.
Definition hdr0 : hdr := mkhdr false false 0 0 0 0.

(* Where a run that is not in a reserve is: in use by the program; holding heaps; the cache of a thread
   (span_cache, span_large_cache: runs of n spans), of a size class, the list of runs freed by other threads,
   the global cache for runs of n spans and its overflow list.  Res and GRes name the reserves, which are kept
   in fields of their own *)
Inductive place := Held | Own | TC (h n : nat) | CC (h c : nat) | DF (h : nat) | GC (n : nat) | OV (n : nat) | Res (h : nat) | GRes.
Lemma place_eq (a b : place) : {a = b} + {a <> b}.
Proof. repeat decide equality. Defined.

(* a reserve: master, first span, number of spans (rpmalloc.c 655-660, 700-706) *)
Record res := mkres { r_master : Z; r_start : Z; r_cnt : Z }.
Definition res0 : res := mkres 0 0 0.

Record st := mkst { hdrs : Z -> hdr; maps : list (Z * Z); cache : place -> list Z; hres : nat -> res; gres : res }.
Definition st0 : st := mkst (fun _ => hdr0) [] (fun _ => []) (fun _ => res0) res0.

Definition zput {A} (f : Z -> A) (k : Z) (v : A) : Z -> A := fun x => if x =? k then v else f x.
Definition nput {A} (f : nat -> A) (k : nat) (v : A) : nat -> A := fun x => if Nat.eqb x k then v else f x.
Definition pput (f : place -> list Z) (k : place) (v : list Z) : place -> list Z := fun x => if place_eq x k then v else f x.

Definition set_hdrs (s : st) f := mkst f (maps s) (cache s) (hres s) (gres s).
Definition set_maps (s : st) m := mkst (hdrs s) m (cache s) (hres s) (gres s).
Definition set_cache (s : st) p l := mkst (hdrs s) (maps s) (pput (cache s) p l) (hres s) (gres s).
Definition set_hres (s : st) h r := mkst (hdrs s) (maps s) (cache s) (nput (hres s) h r) (gres s).
Definition set_gres (s : st) r := mkst (hdrs s) (maps s) (cache s) (hres s) r.

(* reading or writing a header outside all mappings is a fault *)
Definition mapped (m : list (Z * Z)) (i : Z) : bool := existsb (fun r => (fst r <=? i) && (i <? fst r + snd r)) m.
Definition rdh (s : st) (i : Z) : outcome hdr := if mapped (maps s) i then Ok (hdrs s i) else UB.
Definition wrh (s : st) (i : Z) (h : hdr) : outcome st := if mapped (maps s) i then Ok (set_hdrs s (zput (hdrs s) i h)) else UB.

(* rpmalloc.c 2762-2767: the spans mapped at once and kept in reserve by a heap.  [pps] is the number of spans
   in a page, 1 when a page is not larger than a span; [user] is span_map_count of the configuration *)
Record cfg := mkcfg { pps : Z; mapc : Z; hrc : Z }.
Definition config (pps user : Z) : cfg :=
  let m := if user =? 0 then 64 else user in
  let m := if m <? pps then pps else m in
  let m := if m mod pps =? 0 then m else pps in
  mkcfg pps m (if 64 <? m then 64 else m).
Definition big (c : cfg) : bool := 1 <? pps c.

(* rpmalloc.c 1109-1117 _rpmalloc_span_mark_as_subspan_unless_master *)
Definition mark (s : st) (m x n : Z) : outcome st :=
  do h <- rdh s x;
  if x =? m then wrh s x (mkhdr (h_master h) (h_sub h) (h_off h) n (h_total h) (h_remain h))
  else wrh s x (mkhdr false true (x - m) n (h_total h) (h_remain h)).

(* munmap of a whole super span; of anything else than what was mapped is a fault *)
Fixpoint take_map (l : list (Z * Z)) (m t : Z) : option (list (Z * Z)) :=
  match l with
  | [] => None
  | r :: k => if (fst r =? m) && (snd r =? t) then Some k else option_map (cons r) (take_map k m t)
  end.

(* rpmalloc.c 1219-1257 _rpmalloc_span_unmap.  The pages of a run that is not the master are given up
   (madvise) and read as zero from then on *)
Definition span_unmap (c : cfg) (s : st) (x : Z) : outcome st :=
  do h <- rdh s x;
  let m := if h_master h then x else x - h_off h in
  let n := h_cnt h in
  do s <- (if h_master h then wrh s x (mkhdr true true (h_off h) n (h_total h) (h_remain h))
           else if big c then Ok s
           else Ok (set_hdrs s (fun i => if (x <=? i) && (i <? x + n) then hdr0 else hdrs s i)));
  do g <- rdh s m;
  do s <- wrh s m (mkhdr (h_master g) (h_sub g) (h_off g) (h_cnt g) (h_total g) (h_remain g - n));
  if h_remain g - n <=? 0 then
    match take_map (maps s) m (h_total g) with
    | None => UB
    | Some k => Ok (set_maps s k)
    end
  else Ok s.

Fixpoint unmap_all (c : cfg) (s : st) (l : list Z) : outcome st :=
  match l with
  | [] => Ok s
  | x :: r => do s <- span_unmap c s x; unmap_all c s r
  end.

(* rpmalloc.c 486-492, 1428-1430, 1681 *)
Definition t_limit (n : nat) : nat := if Nat.eqb n 1 then 400 else 100 - Nat.div2 n.
Definition t_move (n : nat) : nat := if Nat.eqb n 1 then 64 else Nat.min 6 (2 + t_limit n / 4).
Definition g_limit (n : nat) : nat := 8 * t_limit n.

(* rpmalloc.c 1457-1470: runs the global cache has no room for are unmapped, except masters parts of whose
   super span are still there, which are collected in [keep] *)
Fixpoint sort_out (c : cfg) (s : st) (l keep : list Z) : outcome (st * list Z) :=
  match l with
  | [] => Ok (s, keep)
  | x :: r =>
      do h <- rdh s x;
      if h_master h && (h_cnt h <? h_remain h) then sort_out c s r (x :: keep)
      else do s <- span_unmap c s x; sort_out c s r keep
  end.

(* rpmalloc.c 1478-1486: the first slot from [post] on whose run may be unmapped; it is, and [k] takes the slot *)
Fixpoint replace (c : cfg) (s : st) (pre post : list Z) (k : Z) : outcome (st * list Z * list Z * bool) :=
  match post with
  | [] => Ok (s, pre, [], false)
  | x :: r =>
      do h <- rdh s x;
      if negb (h_master h) || (h_remain h <=? h_cnt h) then do s <- span_unmap c s x; Ok (s, pre, k :: r, true)
      else replace c s (pre ++ [x]) r k
  end.

(* rpmalloc.c 1477-1490: the outer loop; the slot just filled is looked at again for the next run *)
Fixpoint place_keep (c : cfg) (s : st) (pre post keep : list Z) : outcome (st * list Z * list Z) :=
  match keep with
  | [] => Ok (s, pre ++ post, [])
  | k :: r =>
      do q <- replace c s pre post k;
      let '(s, pre, post, found) := q in
      if found then place_keep c s pre post r else Ok (s, pre ++ post, k :: r)
  end.

(* rpmalloc.c 1427-1504 _rpmalloc_global_cache_insert_spans.  When pages are larger than spans the overflow
   list takes all that is too much *)
Definition global_insert (c : cfg) (s : st) (l : list Z) (n : nat) : outcome st :=
  let g := cache s (GC n) in
  let room := if (g_limit n <? length g + length l)%nat then (g_limit n - length g)%nat else length l in
  let s := set_cache s (GC n) (g ++ firstn room l) in
  let rest := skipn room l in
  if big c then Ok (set_cache s (OV n) (rev rest ++ cache s (OV n)))
  else
    do q <- sort_out c s rest [];
    let (s, keep) := q in
    match keep with
    | [] => Ok s
    | _ =>
        do q <- place_keep c s [] (cache s (GC n)) keep;
        let '(s, g, keep) := q in
        Ok (set_cache (set_cache s (GC n) g) (OV n) (keep ++ cache s (OV n)))
    end.

(* rpmalloc.c 1656-1701 _rpmalloc_heap_cache_insert: the last runs of a full cache go to the global one.
   There is no cache for runs of 0 or more than 63 spans.  (The count of the cache is lowered before, not after,
   the runs are inserted in the global one, which does not look at it) *)
Definition cache_insert (c : cfg) (s : st) (h : nat) (x : Z) : outcome st :=
  do d <- rdh s x;
  if (h_cnt d <? 1) || (63 <? h_cnt d) then UB
  else
    let n := Z.to_nat (h_cnt d) in
    let l := x :: cache s (TC h n) in
    if Nat.eqb (length l) (t_limit n) then
      let k := t_move n in
      global_insert c (set_cache s (TC h n) (skipn k l)) (rev (firstn k l)) n
    else Ok (set_cache s (TC h n) l).

(* rpmalloc.c 1120-1131 _rpmalloc_span_map_from_reserve *)
Definition from_reserve (s : st) (h : nat) (n : Z) : outcome (option Z * st) :=
  let r := hres s h in
  let s := set_hres s h (mkres (r_master r) (r_start r + n) (r_cnt r - n)) in
  do s <- mark s (r_master r) (r_start r) n;
  Ok (Some (r_start r), s).

(* rpmalloc.c 1134-1139 _rpmalloc_span_align_count *)
Definition align_count (c : cfg) (n : Z) : Z :=
  let k := if mapc c <? n then n else mapc c in
  if big c && negb (k mod pps c =? 0) then k + (mapc c - k mod mapc c) else k.

(* rpmalloc.c 1142-1184 _rpmalloc_span_map_aligned_count; [ans] says what mmap returns, given what is mapped and
   the number of spans asked for.  (A reserve that is given up is cleared before it is put away, not after) *)
Definition system := list (Z * Z) -> Z -> option Z.
Definition map_aligned (c : cfg) (s : st) (h : nat) (n : Z) (ans : system) : outcome (option Z * st) :=
  let a := align_count c n in
  match ans (maps s) a with
  | None => Ok (None, s)
  | Some i =>
      let s := set_hdrs (set_maps s ((i, a) :: maps s)) (zput (hdrs s) i (mkhdr true false 0 n a a)) in
      if n <? a then
        let r := hres s h in
        do s <- (if 0 <? r_cnt r then do s <- mark (set_hres s h res0) (r_master r) (r_start r) (r_cnt r); cache_insert c s h (r_start r) else Ok s);
        do q <- (if hrc c <? a - n then
                   let g := gres s in
                   do s <- (if 0 <? r_cnt g then do s <- mark (set_gres s res0) (r_master g) (r_start g) (r_cnt g); span_unmap c s (r_start g) else Ok s);
                   Ok (hrc c, set_gres s (mkres i (i + n + hrc c) (a - n - hrc c)))
                 else Ok (a - n, s));
        let (k, s) := (q : Z * st) in
        Ok (Some i, set_hres s h (mkres i (i + n) k))
      else Ok (Some i, s)
  end.

(* rpmalloc.c 1045-1054 _rpmalloc_global_get_reserved_spans *)
Definition global_get (s : st) (n : Z) : outcome (Z * st) :=
  let g := gres s in
  do s <- mark s (r_master g) (r_start g) n;
  Ok (r_start g, set_gres s (mkres (r_master g) (r_start g + n) (r_cnt g - n))).

(* rpmalloc.c 1187-1216 _rpmalloc_span_map *)
Definition span_map (c : cfg) (s : st) (h : nat) (n : Z) (ans : system) : outcome (option Z * st) :=
  if n <=? r_cnt (hres s h) then from_reserve s h n
  else if (big c || (hrc c <? mapc c)) && (n <=? r_cnt (gres s)) then
    let k := if r_cnt (hres s h) =? 0 then hrc c else n in
    let k := if r_cnt (gres s) <? k then r_cnt (gres s) else k in
    do q <- global_get s k;
    let (x, s) := (q : Z * st) in
    let s := if n <? k then set_hres s h (mkres (r_master (gres s)) (x + n) (k - n)) else s in
    do d <- rdh s x;
    do s <- wrh s x (mkhdr (h_master d) (h_sub d) (h_off d) n (h_total d) (h_remain d));
    Ok (Some x, s)
  else map_aligned c s h n ans.

(* rpmalloc.c 1555-1590 _rpmalloc_heap_cache_adopt_deferred: runs freed by other threads go to the caches, the
   first single one to the caller when [want].  Huge blocks, which are mapped on their own, are left out *)
Fixpoint adopt_list (c : cfg) (s : st) (h : nat) (l : list Z) (want : bool) (got : option Z) : outcome (option Z * st) :=
  match l with
  | [] => Ok (got, s)
  | x :: r =>
      do d <- rdh s x;
      match want && (h_cnt d =? 1), got with
      | true, None => adopt_list c s h r want (Some x)
      | _, _ => do s <- cache_insert c s h x; adopt_list c s h r want got
      end
  end.
Definition adopt (c : cfg) (s : st) (h : nat) (want : bool) : outcome (option Z * st) :=
  let l := cache s (DF h) in
  adopt_list c (set_cache s (DF h) []) h l want None.

Definition pop (s : st) (p : place) : option Z * st :=
  match cache s p with
  | [] => (None, s)
  | x :: r => (Some x, set_cache s p r)
  end.

(* rpmalloc.c 1506-1534 _rpmalloc_global_cache_extract_spans, 1738-1768: up to [k] runs of the global cache, the
   latest first, then of the overflow list, become the cache of the thread, whatever was in it *)
Definition global_extract (s : st) (h n : nat) : option Z * st :=
  let k := if Nat.eqb n 1 then 64%nat else 6%nat in
  let g := cache s (GC n) in
  let want := Nat.min k (length g) in
  let from := skipn (length g - want) g in
  let more := firstn (k - want) (cache s (OV n)) in
  let s := set_cache (set_cache s (GC n) (firstn (length g - want) g)) (OV n) (skipn (k - want) (cache s (OV n))) in
  pop (set_cache s (TC h n) (rev (from ++ more))) (TC h n).

(* rpmalloc.c 1799-1829: the loop over sizes, [n] to [n + fuel - 1] *)
Fixpoint find_span (c : cfg) (s : st) (h : nat) (n fuel : nat) : outcome (option Z * st) :=
  match fuel with
  | O => Ok (None, s)
  | S f =>
      match pop s (TC h n) with
      | (Some x, s) => Ok (Some x, s)
      | (None, s) =>
          do q <- (if Nat.eqb n 1 then adopt c s h true else do q <- adopt c s h false; Ok (pop (snd q) (TC h n)));
          match q with
          | (Some x, s) => Ok (Some x, s)
          | (None, s) =>
              match global_extract s h n with
              | (Some x, s) => Ok (Some x, s)
              | (None, s) =>
                  if Z.of_nat n <=? r_cnt (hres s h) then span_map c s h (Z.of_nat n) (fun _ _ => None)
                  else find_span c s h (S n) f
              end
          end
      end
  end.

(* rpmalloc.c 1784-1834 _rpmalloc_heap_extract_new_span: for size class [k], or for a large block *)
Definition extract (c : cfg) (s : st) (h : nat) (k : option nat) (n : nat) (ans : system) : outcome (option Z * st) :=
  let search s :=
    let lim := if (2 <? n)%nat then (n + Nat.div2 n)%nat else n in
    let lim := if (63 <? lim)%nat then 63%nat else lim in
    do q <- find_span c s h n (S lim - n);
    match q with
    | (Some x, s) => Ok (Some x, s)
    | (None, s) => span_map c s h (Z.of_nat n) ans
    end in
  match k with
  | None => search s
  | Some k =>
      match cache s (CC h k) with
      | [] => search s
      | x :: _ =>
          let (y, s) := pop s (TC h 1) in
          Ok (Some x, set_cache s (CC h k) (match y with None => [] | Some y => [y] end))
      end
  end.

(* what the program does.  Alloc: a span for size class k, or n spans for a large block.  FreeSpan: the last
   block of a span of size class k is back.  FreeLarge: a large block is freed by its owner.  FreeOther: the
   same by another thread.  Exit: a thread ends.  NewHeap: memory for new heaps, the first of which is h.
   Scribble: the program writes inside a run it uses, where headers may come to lie later *)
Inductive op :=
| Alloc (h : nat) (k : option nat) (n : nat) (ans : system)
| FreeSpan (h k : nat) (x : Z)
| FreeLarge (h : nat) (x : Z)
| FreeOther (h : nat) (x : Z)
| Exit (h : nat)
| NewHeap (h : nat) (ans : system)
| Scribble (x i : Z) (d : hdr).

Definition drop_one (x : Z) := fix go (l : list Z) : list Z := match l with [] => [] | y :: r => if y =? x then r else y :: go r end.
Definition hold (p : place) (q : option Z * st) : st :=
  match q with (Some x, s) => set_cache s p (x :: cache s p) | (None, s) => s end.

(* rpmalloc.c 1959-1990 _rpmalloc_heap_release with release_cache, as when a thread ends *)
Fixpoint give_caches (c : cfg) (s : st) (h n fuel : nat) : outcome st :=
  match fuel with
  | O => Ok s
  | S f =>
      do s <- (match cache s (TC h n) with
               | [] => Ok s
               | l => global_insert c (set_cache s (TC h n) []) (rev l) n
               end);
      give_caches c s h (S n) f
  end.

(* rpmalloc.c 1855-1928 _rpmalloc_heap_allocate_new: [hsc] spans are needed for 16 heaps; [many] is that number
   for as many heaps as fit a page of more spans.  The new heap has an empty reserve *)
Definition new_heap (c : cfg) (hsc many : Z) (s : st) (h : nat) (ans : system) : outcome (option Z * st) :=
  let s := set_hres s h res0 in
  if hsc <=? r_cnt (gres s) then do q <- global_get s hsc; Ok (Some (fst q), snd q)
  else
    let n := if hsc <? pps c then many else hsc in
    let a := if hsc <? pps c then pps c else hsc in
    match ans (maps s) a with
    | None => Ok (None, s)
    | Some i =>
        let s := set_hdrs (set_maps s ((i, a) :: maps s)) (zput (hdrs s) i (mkhdr true false 0 n a a)) in
        if n <? a then
          let k := if hrc c <? a - n then hrc c else a - n in
          let s := set_hres s h (mkres i (i + n) k) in
          Ok (Some i, if k <? a - n then set_gres s (mkres i (i + n + k) (a - n - k)) else s)
        else Ok (Some i, s)
    end.

Definition step (c : cfg) (hsc many : Z) (s : st) (o : op) : outcome st :=
  match o with
  | Alloc h k n ans => do q <- extract c s h k n ans; Ok (hold Held q)
  | FreeSpan h k x =>                                      (* 1259-1277 _rpmalloc_span_release_to_cache *)
      let s := set_cache s Held (drop_one x (cache s Held)) in
      let old := cache s (CC h k) in
      let s := set_cache s (CC h k) [x] in
      match old with [] => Ok s | y :: _ => cache_insert c s h y end
  | FreeLarge h x =>                                       (* 2402-2443 *)
      do d <- rdh s x;
      let s := set_cache s Held (drop_one x (cache s Held)) in
      if (1 <? h_cnt d) && Nat.eqb (length (cache s (TC h 1))) 0 && (r_cnt (hres s h) =? 0) then
        Ok (set_hres s h (mkres (if h_master d then x else x - h_off d) x (h_cnt d)))
      else cache_insert c s h x
  | FreeOther h x =>                                       (* 2354-2361 *)
      let s := set_cache s Held (drop_one x (cache s Held)) in
      Ok (set_cache s (DF h) (x :: cache s (DF h)))
  | Exit h => do q <- adopt c s h false; give_caches c (snd q) h 1 63
  | NewHeap h ans => do q <- new_heap c hsc many s h ans; Ok (hold Own q)
  | Scribble x i d => Ok (set_hdrs s (zput (hdrs s) i d))
  end.

(* rpmalloc.c 2020-2053 _rpmalloc_heap_finalize, 1608-1632: the reserve, the runs freed by other threads, the
   caches of the size classes and of the thread are unmapped *)
Definition sizes : list nat := seq 1 63.
Definition fin_heap (c : cfg) (classes : nat) (s : st) (h : nat) : outcome st :=
  let r := hres s h in
  do s <- (if 0 <? r_cnt r then
             do q <- span_map c s h (r_cnt r) (fun _ _ => None);
             match q with (Some x, s) => span_unmap c s x | (None, s) => UB end
           else Ok s);
  let l := cache s (DF h) in
  do s <- unmap_all c (set_cache s (DF h) []) l;
  do s <- fold_left (fun o k => do s <- o; let l := cache s (CC h k) in unmap_all c (set_cache s (CC h k) []) l) (seq 0 classes) (Ok s);
  fold_left (fun o n => do s <- o; let l := rev (cache s (TC h n)) in unmap_all c (set_cache s (TC h n) []) l) sizes (Ok s).

(* rpmalloc.c 2846-2880 rpmalloc_finalize, called by the thread of heap [h0] when the program has freed all its
   blocks: the runs still Held, whose blocks are all free, are unmapped with the heaps they belong to
   (1354-1396); the runs holding heaps are unmapped when all their heaps are done (here: after all heaps) *)
Definition finalize (c : cfg) (classes : nat) (s : st) (hs : list nat) (h0 : nat) : outcome st :=
  do q <- adopt c s h0 false;
  do s <- give_caches c (snd q) h0 1 63;
  let g := gres s in
  do s <- (if 0 <? r_cnt g then
             do d <- rdh s (r_master g);
             do s <- wrh s (r_master g) (mkhdr (h_master d) (h_sub d) (h_off d) (h_cnt d) (h_total d) (h_remain d - r_cnt g));
             Ok (set_gres s res0)
           else Ok s);
  do s <- fold_left (fun o h => do s <- o; fin_heap c classes s h) hs (Ok s);
  let l := cache s Held in
  do s <- unmap_all c (set_cache s Held []) l;
  let l := cache s Own in
  do s <- unmap_all c (set_cache s Own []) l;
  fold_left (fun o n => do s <- o;
               let l := cache s (GC n) ++ cache s (OV n) in
               unmap_all c (set_cache (set_cache s (GC n) []) (OV n) []) l) sizes (Ok s).

(* rpmalloc.c 925-1035, 1000-1009: what is asked of the system for [size] bytes and given back for [release]
   bytes at the address and offset kept in the header.  [gran] is the granularity of mappings *)
Definition SPAN : Z := 65536.
Definition mmap_os (gran size raw : Z) : Z * Z * (Z * Z) :=
  let pad := if (SPAN <=? size) && (gran <? SPAN) then SPAN else 0 in
  if 0 <? pad then
    let f := pad - raw mod SPAN in
    (raw + f, Z.shiftr f 3, (raw, size + pad))
  else (raw, 0, (raw, size + pad)).
Definition unmap_os (gran addr offset release : Z) : Z * Z :=
  if (0 <? release) && negb (offset =? 0) then
    (addr - Z.shiftl offset 3, if (SPAN <=? release) && (gran <? SPAN) then release + SPAN else release)
  else (addr, release).
