(* Runs of spans of the allocator: rpmalloc.c 897-1266, 1354-2066, 2402-2443, 2844-2915, 3138-3189.  What RpModel
   takes from an oracle: the caches of threads, the global caches, the reserves, mapping and unmapping, the heaps and
   the threads that use them.
   Default build (page of 4 KiB, 64-bit, thread and global cache on, no unlimited cache, no assertions): the count of
   spans mapped at once equals the count a heap keeps in reserve (2768-2773), so the global reserve is never used.
   A span is named by its address divided by 64 KiB.  Each call runs to completion before the next one starts.
   Huge blocks, mapped and unmapped on their own, are left out.  A list whose spans are moved on is cut before they are,
   not after (nothing looks at it in between). *)
From Verif Require Import Base.
Local Open Scope Z_scope.

(* 473-492, 695-697 *)
Definition SPAN := 65536.
Definition PAGE := 4096.
Definition RUNS := 63.        (* LARGE_CLASS_COUNT: the most spans of a run *)
Definition MAPCOUNT := 64.    (* DEFAULT_SPAN_MAP_COUNT *)
Definition CLASSES := 126.
Definition K_LARGE := 126.
(* 1862-1865: spans for sixteen heaps; sizeof(heap_t) is about 56 KiB *)
Definition HEAPSPANS := 14.
Definition HEAPS := 16%nat.

(* 555-592 (span_t), the fields used here.  The flags: first span of a mapping, later one, first one that is itself
   unmapped (SPAN_FLAG_MASTER | SUBSPAN | UNMAPPED_MASTER).  Links to other spans are lists below *)
Inductive kind := KMaster | KSub | KDead.
Record hdr := mkhdr { h_kind : kind; h_n : Z; h_off : Z; h_total : Z; h_rem : Z; h_al : Z; h_heap : nat; h_cls : Z }.
Definition zero_hdr : hdr := mkhdr KSub 0 0 0 0 0 0 0.
Definition is_master (h : hdr) : bool := match h_kind h with KSub => false | _ => true end.

(* where spans are kept: a heap's cache of runs of a length (array), a size class's spare span, the list of spans
   other threads gave back, the global cache of a length: array and overflow list *)
Inductive place := TC (h : nat) (n : Z) | CC (h : nat) (c : Z) | DF (h : nat) | GA (n : Z) | GO (n : Z).
Definition place_eqb (a b : place) : bool :=
  match a, b with
  | TC h n, TC k m => Nat.eqb h k && (n =? m)
  | CC h n, CC k m => Nat.eqb h k && (n =? m)
  | DF h, DF k => Nat.eqb h k
  | GA n, GA m => n =? m
  | GO n, GO m => n =? m
  | _, _ => false
  end.

(* what the kernel and the callers see *)
Inductive ev :=
| EMap (a len : Z)                              (* mmap gave these bytes *)
| EDrop (a len : Z)                             (* madvise: contents gone *)
| ERelease (a len : Z)                          (* munmap *)
| ETake (t : nat) (n : Z) (r : option (Z * Z))  (* a run of n spans was asked for *)
| EFree (t : nat) (s : Z)
| EHeap (t h : nat)                             (* the thread got a heap *)
| ELeave (t h : nat)
| EDone.                                        (* no block is in use any more *)

Record state := mkst {
  mem : Z -> option hdr;          (* header of a span; None: not mapped, or its contents are gone *)
  at_ : place -> list Z;
  res : nat -> Z * Z * Z;         (* span_reserve_master, span_reserve, spans_reserved *)
  nh : nat;                       (* heaps made so far *)
  own : nat -> option nat;        (* owner_thread *)
  fin : nat -> Z;                 (* finalize *)
  kids : nat -> Z;                (* child_count *)
  groups : list (nat * Z);        (* first heap of each mapping of heaps, and its span *)
  orph : list nat;                (* _memory_orphan_heaps *)
  th : nat -> option nat;         (* the thread's heap *)
  log : list ev }.                (* latest first *)

Definition put_at {A B} (eqb : A -> A -> bool) (f : A -> B) (k : A) (v : B) : A -> B := fun x => if eqb k x then v else f x.
Definition w_mem st m := mkst m (at_ st) (res st) (nh st) (own st) (fin st) (kids st) (groups st) (orph st) (th st) (log st).
Definition w_at st p l := mkst (mem st) (put_at place_eqb (at_ st) p l) (res st) (nh st) (own st) (fin st) (kids st) (groups st) (orph st) (th st) (log st).
Definition w_res st h r := mkst (mem st) (at_ st) (put_at Nat.eqb (res st) h r) (nh st) (own st) (fin st) (kids st) (groups st) (orph st) (th st) (log st).
Definition w_own st h o := mkst (mem st) (at_ st) (res st) (nh st) (put_at Nat.eqb (own st) h o) (fin st) (kids st) (groups st) (orph st) (th st) (log st).
Definition w_fin st h z := mkst (mem st) (at_ st) (res st) (nh st) (own st) (put_at Nat.eqb (fin st) h z) (kids st) (groups st) (orph st) (th st) (log st).
Definition w_kids st h z := mkst (mem st) (at_ st) (res st) (nh st) (own st) (fin st) (put_at Nat.eqb (kids st) h z) (groups st) (orph st) (th st) (log st).
Definition w_groups st n g := mkst (mem st) (at_ st) (res st) n (own st) (fin st) (kids st) g (orph st) (th st) (log st).
Definition w_orph st l := mkst (mem st) (at_ st) (res st) (nh st) (own st) (fin st) (kids st) (groups st) l (th st) (log st).
Definition w_th st t o := mkst (mem st) (at_ st) (res st) (nh st) (own st) (fin st) (kids st) (groups st) (orph st) (put_at Nat.eqb (th st) t o) (log st).
Definition note st e := mkst (mem st) (at_ st) (res st) (nh st) (own st) (fin st) (kids st) (groups st) (orph st) (th st) (e :: log st).

Definition get (st : state) (s : Z) : outcome hdr := match mem st s with Some h => Ok h | None => UB end.
Definition put (st : state) (s : Z) (h : hdr) : state := w_mem st (put_at Z.eqb (mem st) s (Some h)).
Definition fill (st : state) (s n : Z) (v : option hdr) : state := w_mem st (fun x => if (s <=? x) && (x <? s + n) then v else mem st x).
Definition zlen {A} (l : list A) : Z := Z.of_nat (length l).

(* 925-993, 897-907: mmap of that many spans and one more; [a] is the kernel's answer.  The first span begins at the
   next multiple of 64 KiB after [a]; the distance divided by eight is kept *)
Definition mmap (st : state) (n a : Z) : Z * Z * state :=
  let pad := SPAN - a mod SPAN in
  let m := (a + pad) / SPAN in
  (m, Z.shiftr pad 3, note (fill st m n (Some zero_hdr)) (EMap a ((n + 1) * SPAN))).

(* 1223-1256 _rpmalloc_span_unmap, 913-923, 996-1037: a later span's pages are dropped at once, the whole mapping is
   given back with the last *)
Definition with_kind h k := mkhdr k (h_n h) (h_off h) (h_total h) (h_rem h) (h_al h) (h_heap h) (h_cls h).
Definition with_rem h r := mkhdr (h_kind h) (h_n h) (h_off h) (h_total h) r (h_al h) (h_heap h) (h_cls h).
Definition unmap (st : state) (s : Z) : outcome state :=
  do h <- get st s;
  let m := if is_master h then s else s - h_off h in
  let st := if is_master h then put st s (with_kind h KDead) else note (fill st s (h_n h) None) (EDrop (s * SPAN) (h_n h * SPAN)) in
  do k <- get st m;
  let r := h_rem k - h_n h in
  let st := put st m (with_rem k r) in
  if r <=? 0 then
    let '(a, len) := if h_al k =? 0 then (m * SPAN, h_total k * SPAN)
                     else (m * SPAN - Z.shiftl (h_al k) 3, h_total k * SPAN + (if SPAN <=? h_total k * SPAN then SPAN else 0)) in
    Ok (note (fill st m (h_total k) None) (ERelease a len))
  else Ok st.

(* ---- global cache: 1427-1541 ---- *)
Definition glimit (n : Z) : Z := if n =? 1 then 3200 else 8 * (100 - Z.shiftr n 1).
(* 1459-1470: what does not fit is unmapped, except first spans whose mapping has others *)
Fixpoint sift (st : state) (l keep : list Z) : outcome (state * list Z) :=
  match l with
  | [] => Ok (st, keep)
  | s :: r =>
      do h <- get st s;
      if is_master h && (h_n h <? h_rem h) then sift st r (s :: keep)
      else do st <- unmap st s; sift st r keep
  end.
(* 1478-1486: the next one in the array that may be unmapped; what is before it and after it *)
Fixpoint slot (st : state) (pre arr : list Z) : outcome (state * option (list Z * list Z) * list Z) :=
  match arr with
  | [] => Ok (st, None, pre)
  | s :: r =>
      do h <- get st s;
      if negb (is_master h) || (h_rem h <=? h_n h) then do st <- unmap st s; Ok (st, Some (pre, r), [])
      else slot st (pre ++ [s]) r
  end.
(* 1475-1490: kept spans take the place of others *)
Fixpoint slots (st : state) (pre arr keep : list Z) : outcome (state * list Z * list Z) :=
  match keep with
  | [] => Ok (st, pre ++ arr, [])
  | k :: keep' =>
      do x <- slot st pre arr;
      let '(st, f, all) := x in
      match f with
      | None => Ok (st, all, keep)
      | Some (pre, post) => slots st pre (k :: post) keep'
      end
  end.
(* 1427-1501 _rpmalloc_global_cache_insert_spans; the array has 3200 places *)
Definition ginsert (st : state) (n : Z) (l : list Z) : outcome state :=
  let cnt := zlen (at_ st (GA n)) in
  let ins := if glimit n <? cnt + zlen l then glimit n - cnt else zlen l in
  if (n <? 1) || (RUNS <? n) || (ins <? 0) || (3200 <? cnt + ins) then UB else
  let st := w_at st (GA n) (at_ st (GA n) ++ firstn (Z.to_nat ins) l) in
  do x <- sift st (skipn (Z.to_nat ins) l) [];
  let '(st, keep) := x in
  match keep with
  | [] => Ok st
  | _ =>
      do y <- slots st [] (at_ st (GA n)) keep;
      let '(st, arr, keep) := y in
      Ok (w_at (w_at st (GA n) arr) (GO n) (keep ++ at_ st (GO n)))
  end.
(* 1503-1537 _rpmalloc_global_cache_extract_spans: the last ones of the array, then from the overflow *)
Definition gextract (st : state) (n want : Z) : list Z * state :=
  let arr := at_ st (GA n) in
  let k := Z.min want (zlen arr) in
  let d := (length arr - Z.to_nat k)%nat in
  let o := at_ st (GO n) in
  let j := Z.to_nat (want - k) in
  (skipn d arr ++ firstn j o, w_at (w_at st (GA n) (firstn d arr)) (GO n) (skipn j o)).

(* ---- thread cache: 1651-1717 ---- *)
Definition tlimit (n : Z) : Z := if n =? 1 then 400 else 100 - Z.shiftr n 1.
Definition tcap (n : Z) : Z := if n =? 1 then 400 else 100.
Definition ttransfer (n : Z) : Z := if n =? 1 then 64 else Z.min 6 (2 + Z.shiftr (tlimit n) 2).
(* 1651-1701 _rpmalloc_heap_cache_insert.  With finalize set only within _rpmalloc_heap_finalize, where the nested
   _rpmalloc_heap_global_finalize (1656) returns at once *)
Definition cinsert (st : state) (h : nat) (s : Z) : outcome state :=
  if negb (fin st h =? 0) then unmap st s else
  do hd <- get st s;
  let n := h_n hd in
  if (n <? 1) || (RUNS <? n) then UB else
  let l := at_ st (TC h n) in
  if tcap n <=? zlen l then UB else
  let l := l ++ [s] in
  if zlen l =? tlimit n then
    let k := Z.to_nat (tlimit n - ttransfer n) in
    ginsert (w_at st (TC h n) (firstn k l)) n (skipn k l)
  else Ok (w_at st (TC h n) l).
(* 1704-1717 *)
Definition textract (st : state) (h : nat) (n : Z) : option Z * state :=
  match rev (at_ st (TC h n)) with
  | [] => (None, st)
  | s :: r => (Some s, w_at st (TC h n) (rev r))
  end.
(* 1555-1588: spans given back by other threads; the first single one may be wanted at once *)
Fixpoint adopt_list (st : state) (h : nat) (want : bool) (got : option Z) (l : list Z) : outcome (option Z * state) :=
  match l with
  | [] => Ok (got, st)
  | s :: r =>
      do hd <- get st s;
      let single := (h_cls hd <? CLASSES) || (h_n hd =? 1) in
      match want && single, got with
      | true, None => adopt_list st h want (Some s) r
      | _, _ => do st <- cinsert st h s; adopt_list st h want got r
      end
  end.
Definition adopt (st : state) (h : nat) (want : bool) : outcome (option Z * state) :=
  adopt_list (w_at st (DF h) []) h want None (at_ st (DF h)).

(* ---- mapping: 1109-1131, 1154-1220 ---- *)
(* 1109-1117 *)
Definition mark_sub (st : state) (m s n : Z) : outcome state :=
  do h <- get st s;
  Ok (put st s (if s =? m then mkhdr (h_kind h) n (h_off h) (h_total h) (h_rem h) (h_al h) (h_heap h) (h_cls h)
                else mkhdr KSub n (s - m) (h_total h) (h_rem h) 0 (h_heap h) (h_cls h))).
(* 1120-1131 *)
Definition from_reserve (st : state) (h : nat) (n : Z) : outcome (Z * state) :=
  let '(m, s, k) := res st h in
  do st <- mark_sub (w_res st h (m, s + n, k - n)) m s n;
  Ok (s, st).
(* 1142-1149, 1154-1188, 1191-1220: [mm] is the kernel's answer, None without memory *)
Definition span_map (st : state) (h : nat) (n : Z) (mm : option Z) : outcome (option Z * state) :=
  let '(rm, rs, rk) := res st h in
  if n <=? rk then do x <- from_reserve st h n; Ok (Some (fst x), snd x) else
  match mm with
  | None => Ok (None, st)
  | Some a =>
      let total := Z.max n MAPCOUNT in
      let '(m, al, st) := mmap st total a in
      do k <- get st m;
      let st := put st m (mkhdr KMaster n (h_off k) total total al (h_heap k) (h_cls k)) in
      if n <? total then
        let st := w_res st h (m, m + n, total - n) in
        do st <- (if rk =? 0 then Ok st else do st <- mark_sub st rm rs rk; cinsert st h rs);
        Ok (Some m, st)
      else Ok (Some m, st)
  end.

(* ---- a run for a heap: 1785-1834 ---- *)
(* 1738-1769: the heap's cache is overwritten by what the global cache gives *)
Definition gfetch (st : state) (h : nat) (n : Z) : option Z * state :=
  let '(l, st) := gextract st n (if n =? 1 then 64 else 6) in
  textract (w_at st (TC h n) l) h n.
Fixpoint levels (fuel : nat) (st : state) (h : nat) (n limit : Z) : outcome (option Z * state) :=
  match fuel with
  | O => Fuel
  | S fuel =>
      match textract st h n with
      | (Some s, st) => Ok (Some s, st)
      | (None, st) =>
          do x <- adopt st h (n =? 1);
          let '(got, st) := x in
          let '(got, st) := match got with Some s => (Some s, st) | None => if n =? 1 then (None, st) else textract st h n end in
          match got with
          | Some s => Ok (Some s, st)
          | None =>
              match gfetch st h n with
              | (Some s, st) => Ok (Some s, st)
              | (None, st) =>
                  let '(_, _, rk) := res st h in
                  if n <=? rk then do x <- from_reserve st h n; Ok (Some (fst x), snd x)
                  else if n + 1 <=? limit then levels fuel st h (n + 1) limit
                  else Ok (None, st)
              end
          end
      end
  end.
Definition nlimit (n : Z) : Z := Z.min RUNS (if 2 <? n then n + Z.shiftr n 1 else n).
Definition extract (st : state) (h : nat) (n cls : Z) (mm : option Z) : outcome (option Z * state) :=
  match (if cls <? CLASSES then at_ st (CC h cls) else []) with
  | s :: _ =>
      let '(c, st) := textract st h 1 in
      Ok (Some s, w_at st (CC h cls) (match c with Some x => [x] | None => [] end))
  | [] =>
      do x <- levels (Z.to_nat (nlimit n)) st h n (nlimit n);
      let '(got, st) := x in
      match got with
      | Some s => Ok (Some s, st)
      | None => span_map st h n mm
      end
  end.

(* ---- threads and heaps: 1836-2001, 2890-2915 ---- *)
(* 1856-1927 _rpmalloc_heap_allocate_new: sixteen heaps, fifteen of them without a thread *)
Definition heap_new (st : state) (a : Z) : outcome (nat * state) :=
  let '(m, al, st) := mmap st HEAPSPANS a in
  do k <- get st m;
  let st := put st m (mkhdr KMaster HEAPSPANS (h_off k) HEAPSPANS HEAPSPANS al (h_heap k) (h_cls k)) in
  let h := nh st in
  let st := w_kids (w_groups st (h + HEAPS)%nat ((h, m) :: groups st)) h (Z.of_nat HEAPS - 1) in
  Ok (h, w_orph st (rev (seq (S h) (HEAPS - 1)) ++ orph st)).
(* 2890-2900, 1937-1949 *)
Definition thread_init (st : state) (t : nat) (mm : option Z) : outcome state :=
  match th st t with
  | Some _ => Ok st
  | None =>
      do x <- match orph st with
              | h :: r => Ok (Some h, w_orph st r)
              | [] => match mm with Some a => do y <- heap_new st a; Ok (Some (fst y), snd y) | None => Ok (None, st) end
              end;
      let '(g, st) := x in
      match g with
      | None => Ok st
      | Some h =>
          do y <- adopt st h false;
          Ok (note (w_th (w_own (snd y) h (Some t)) t (Some h)) (EHeap t h))
      end
  end.
(* 1959-1984: the caches of every length go to the global cache *)
Fixpoint flush (st : state) (h : nat) (n : Z) (fuel : nat) : outcome state :=
  match fuel with
  | O => Ok st
  | S fuel =>
      do st <- match at_ st (TC h n) with
               | [] => Ok st
               | l => ginsert (w_at st (TC h n) []) n l
               end;
      flush st h (n + 1) fuel
  end.
(* 2904-2912, 1951-1997 *)
Definition thread_done (st : state) (t : nat) : outcome state :=
  match th st t with
  | None => Ok st
  | Some h =>
      do x <- adopt st h false;
      do st <- flush (snd x) h 1 63;
      Ok (note (w_orph (w_own (w_th st t None) h None) (h :: orph st)) (ELeave t h))
  end.

(* ---- using runs ---- *)
(* 2193-2201 and below: a run for blocks of a class (n is 1), or for one large block; without a heap a null pointer is
   read *)
Definition take (st : state) (t : nat) (n cls : Z) (mm : option Z) : outcome state :=
  match th st t with
  | None => UB
  | Some h =>
      do x <- extract st h n cls mm;
      let '(got, st) := x in
      match got with
      | None => Ok (note st (ETake t n None))
      | Some s =>
          do hd <- get st s;
          Ok (note (put st s (mkhdr (h_kind hd) (h_n hd) (h_off hd) (h_total hd) (h_rem hd) (h_al hd) h cls)) (ETake t n (Some (s, h_n hd))))
      end
  end.
(* the last block of a run is freed: 1259-1277 (a class's run by its heap's thread), 2402-2443 (a large one), 2354-2361
   (by another thread) *)
Definition give (st : state) (t : nat) (s : Z) : outcome state :=
  do hd <- get st s;
  let st := note st (EFree t s) in
  let h := h_heap hd in
  if negb (match own st h with Some u => Nat.eqb u t | None => false end) then Ok (w_at st (DF h) (s :: at_ st (DF h)))
  else if h_cls hd <? CLASSES then
    let st' := w_at st (CC h (h_cls hd)) [s] in
    match at_ st (CC h (h_cls hd)) with
    | c :: _ => cinsert st' h c
    | [] => Ok st'
    end
  else
    let '(_, _, rk) := res st h in
    if (1 <? h_n hd) && (zlen (at_ st (TC h 1)) =? 0) && (rk =? 0)
    then Ok (w_res st h (if is_master hd then s else s - h_off hd, s, h_n hd))
    else cinsert st h s.

(* ---- the end: 2844-2876, 1590-1648, 2007-2060, 1409-1425 ---- *)
Fixpoint unmap_all (st : state) (l : list Z) : outcome state :=
  match l with [] => Ok st | s :: r => do st <- unmap st s; unmap_all st r end.
(* 1590-1601 *)
Definition first_of (st : state) (h : nat) : option Z :=
  match find (fun x => Nat.eqb (fst x) h) (groups st) with Some (_, m) => Some m | None => None end.
(* the first heap of the mapping a heap is in: master_heap, or itself *)
Definition master_of (h : nat) : nat := (h / HEAPS * HEAPS)%nat.
Definition heap_unmap_master (st : state) (g : nat) : outcome state :=
  if (1 <? fin st g) && (kids st g =? 0) then
    match first_of st g with
    | None => UB
    | Some m => do st <- unmap st m; Ok (w_groups st (nh st) (filter (fun x => negb (Nat.eqb (fst x) g)) (groups st)))
    end
  else Ok st.
Definition heap_unmap (st : state) (h : nat) : outcome state :=
  let g := master_of h in
  match first_of st g with
  | None => UB
  | Some _ =>
      if Nat.eqb g h then heap_unmap_master st g
      else let st := w_kids st g (kids st g - 1) in
           if kids st g =? 0 then heap_unmap_master st g else Ok st
  end.
(* runs of the heap and class among [idle], the class runs with no block in use *)
Definition of_class (st : state) (h : nat) (c : Z) (idle : list Z) : list Z :=
  filter (fun s => match mem st s with Some hd => Nat.eqb (h_heap hd) h && (h_cls hd =? c) | None => false end) idle.
Fixpoint fin_classes (st : state) (h : nat) (c : Z) (idle : list Z) (fuel : nat) : outcome state :=
  match fuel with
  | O => Ok st
  | S fuel =>
      do st <- unmap_all (w_at st (CC h c) []) (at_ st (CC h c));
      do st <- unmap_all st (of_class st h c idle);
      fin_classes st h (c + 1) idle fuel
  end.
Fixpoint fin_caches (st : state) (h : nat) (n : Z) (fuel : nat) : outcome state :=
  match fuel with
  | O => Ok st
  | S fuel => do st <- unmap_all (w_at st (TC h n) []) (at_ st (TC h n)); fin_caches st h (n + 1) fuel
  end.
(* 1603-1648, 2007-2060: all runs of the heap are idle, so that it is completely free afterwards *)
Definition fin_heap (st : state) (h : nat) (idle : list Z) : outcome state :=
  let st := w_fin st h 2 in
  let '(_, _, rk) := res st h in
  do st <- (if rk =? 0 then Ok st else do x <- from_reserve st h rk; unmap (snd x) (fst x));
  do y <- adopt st h false;
  do st <- fin_classes (snd y) h 0 idle 126;
  do st <- fin_caches st h 1 63;
  heap_unmap st h.
Fixpoint fin_heaps (st : state) (idle : list Z) (hs : list nat) : outcome state :=
  match hs with [] => Ok st | h :: r => do st <- fin_heap st h idle; fin_heaps st idle r end.
Fixpoint fin_global (st : state) (n : Z) (fuel : nat) : outcome state :=
  match fuel with
  | O => Ok st
  | S fuel =>
      do st <- unmap_all (w_at st (GA n) []) (at_ st (GA n));
      do st <- unmap_all (w_at st (GO n) []) (at_ st (GO n));
      fin_global st (n + 1) fuel
  end.
(* 2844-2876 with the heaps in the order [hs] (of a hash table in the code) and [idle] the runs still assigned *)
Definition finalize (st : state) (t : nat) (idle : list Z) (hs : list nat) : outcome state :=
  do st <- thread_done st t;
  do st <- fin_heaps (note st EDone) idle hs;
  fin_global st 1 63.

Inductive op := OInit (t : nat) (mm : option Z) | OTake (t : nat) (n cls : Z) (mm : option Z) | OGive (t : nat) (s : Z) | ODone (t : nat).
Definition step (st : state) (o : op) : outcome state :=
  match o with
  | OInit t mm => thread_init st t mm
  | OTake t n cls mm => take st t n cls mm
  | OGive t s => give st t s
  | ODone t => thread_done st t
  end.
Fixpoint run (st : state) (os : list op) : outcome state :=
  match os with [] => Ok st | o :: r => do st <- step st o; run st r end.
Definition state0 : state :=
  mkst (fun _ => None) (fun _ => []) (fun _ => (0, 0, 0)) 0 (fun _ => None) (fun _ => 0) (fun _ => 0) [] [] (fun _ => None) [].
