(* One span of rpmalloc shared by its owner and any number of threads that free its blocks, as interleavings of the
   atomic accesses (sequentially consistent).  rpmalloc.c 1307-1347 (a new span, taking the deferred list), 1555-1587 (adopting
   spans given back), 2070-2104 (allocation), 2326-2383 (freeing by the owner and by others).
   Blocks are numbered 0, 1, ...; a free list is the list of its blocks (links are written into blocks the writer owns).
   The class list of the heap is restricted to blocks of this span; other spans and the caches are left out, and so is
   the end of the owner's thread.  Runs of accesses to fields that only the owner uses are one step. *)
From Verif Require Import Base DllModel.

(* 2364-2383, 2354-2361: a thread that frees block b of a span it does not own *)
Inductive tpc :=
| TIdle
| F0 (b : nat)                                  (* 2370-2372: take the list, leaving the mark *)
| F1 (b : nat) (l : list nat)                   (* 2373-2375: link, count, compare *)
| F2 (b : nat) (l : list nat) (all : bool)      (* 2376: store the list *)
| F3                                            (* 2359: load the heap's list into the span's link *)
| F4 (h : list nat).                            (* 2360: compare and swap its head *)
(* the owner: A allocation (2092-2104), D freeing (2326-2351) *)
Inductive opc :=
| OIdle
| A2 (r : nat) | A3 (r : nat) | A4 (r : nat) | A5 (r : nat) | A6 (r : nat) | A7 (r : nat)
| D1 (b : nat) | D2 | D3 | D4 (l : list nat) | D5.

Record cs := {
  dptr : option (list nat);    (* free_list_deferred; None: INVALID_POINTER *)
  lsz : nat;                   (* list_size *)
  sfree : option (list nat);   (* free_list; None: a link of the heap's list of spans *)
  lim : nat;                   (* free_list_limit *)
  usd : nat;                   (* used_count *)
  part : bool;                 (* linked in the partial list *)
  cls : list nat;              (* blocks in the heap's class list *)
  relsd : bool;                (* in the caches *)
  hdef : list nat;             (* the heap's span_free_deferred: this span is 0 *)
  who : nat -> option nat;     (* blocks given out: to which thread; 0 is the owner *)
  own_pc : opc;
  thr_pc : nat -> tpc }.

Definition set_dptr (s : cs) v := {| dptr := v; lsz := lsz s; sfree := sfree s; lim := lim s; usd := usd s; part := part s; cls := cls s; relsd := relsd s; hdef := hdef s; who := who s; own_pc := own_pc s; thr_pc := thr_pc s |}.
Definition set_lsz (s : cs) v := {| dptr := dptr s; lsz := v; sfree := sfree s; lim := lim s; usd := usd s; part := part s; cls := cls s; relsd := relsd s; hdef := hdef s; who := who s; own_pc := own_pc s; thr_pc := thr_pc s |}.
Definition set_sfree (s : cs) v := {| dptr := dptr s; lsz := lsz s; sfree := v; lim := lim s; usd := usd s; part := part s; cls := cls s; relsd := relsd s; hdef := hdef s; who := who s; own_pc := own_pc s; thr_pc := thr_pc s |}.
Definition set_lim (s : cs) v := {| dptr := dptr s; lsz := lsz s; sfree := sfree s; lim := v; usd := usd s; part := part s; cls := cls s; relsd := relsd s; hdef := hdef s; who := who s; own_pc := own_pc s; thr_pc := thr_pc s |}.
Definition set_usd (s : cs) v := {| dptr := dptr s; lsz := lsz s; sfree := sfree s; lim := lim s; usd := v; part := part s; cls := cls s; relsd := relsd s; hdef := hdef s; who := who s; own_pc := own_pc s; thr_pc := thr_pc s |}.
Definition set_part (s : cs) v := {| dptr := dptr s; lsz := lsz s; sfree := sfree s; lim := lim s; usd := usd s; part := v; cls := cls s; relsd := relsd s; hdef := hdef s; who := who s; own_pc := own_pc s; thr_pc := thr_pc s |}.
Definition set_cls (s : cs) v := {| dptr := dptr s; lsz := lsz s; sfree := sfree s; lim := lim s; usd := usd s; part := part s; cls := v; relsd := relsd s; hdef := hdef s; who := who s; own_pc := own_pc s; thr_pc := thr_pc s |}.
Definition set_relsd (s : cs) v := {| dptr := dptr s; lsz := lsz s; sfree := sfree s; lim := lim s; usd := usd s; part := part s; cls := cls s; relsd := v; hdef := hdef s; who := who s; own_pc := own_pc s; thr_pc := thr_pc s |}.
Definition set_hdef (s : cs) v := {| dptr := dptr s; lsz := lsz s; sfree := sfree s; lim := lim s; usd := usd s; part := part s; cls := cls s; relsd := relsd s; hdef := v; who := who s; own_pc := own_pc s; thr_pc := thr_pc s |}.
Definition set_who (s : cs) b v := {| dptr := dptr s; lsz := lsz s; sfree := sfree s; lim := lim s; usd := usd s; part := part s; cls := cls s; relsd := relsd s; hdef := hdef s; who := upd (who s) b v; own_pc := own_pc s; thr_pc := thr_pc s |}.
Definition set_own (s : cs) v := {| dptr := dptr s; lsz := lsz s; sfree := sfree s; lim := lim s; usd := usd s; part := part s; cls := cls s; relsd := relsd s; hdef := hdef s; who := who s; own_pc := v; thr_pc := thr_pc s |}.
Definition set_thr (s : cs) i v := {| dptr := dptr s; lsz := lsz s; sfree := sfree s; lim := lim s; usd := usd s; part := part s; cls := cls s; relsd := relsd s; hdef := hdef s; who := who s; own_pc := own_pc s; thr_pc := upd (thr_pc s) i v |}.

Section Cnt.
Context (cnt : nat).    (* block_count *)

(* 2354-2383, one access *)
Definition thr_step (s : cs) (i : nat) : outcome cs :=
  match thr_pc s i with
  | TIdle => Ok s
  | F0 b => if relsd s then UB else match dptr s with None => Ok s | Some l => Ok (set_thr (set_dptr s None) i (F1 b l)) end
  | F1 b l => if relsd s then UB else Ok (set_thr (set_lsz s (S (lsz s))) i (F2 b l (Nat.eqb (S (lsz s)) cnt)))
  | F2 b l all => if relsd s then UB else Ok (set_thr (set_dptr s (Some (b :: l))) i (if all then F3 else TIdle))
  | F3 => if relsd s then UB else Ok (set_thr (set_sfree s None) i (F4 (hdef s)))
  | F4 h => match hdef s, h with
            | [], [] => Ok (set_thr (set_hdef s [0]) i TIdle)
            | x :: r, y :: _ => if Nat.eqb x y then Ok (set_thr (set_hdef s (0 :: x :: r)) i TIdle) else Ok (set_thr s i F3)
            | _, _ => Ok (set_thr s i F3)
            end
  end.

(* the owner's steps *)
Definition full (s : cs) : outcome bool := match sfree s with None => UB | Some l => Ok (match l with [] => (cnt <=? lim s)%nat | _ => false end) end.
Definition own_step (s : cs) : outcome cs :=
  match own_pc s with
  | OIdle => Ok s
  | pc =>
    if relsd s then UB else
    match pc with
    | OIdle => Ok s
    | A2 r => (* 2093 *) Ok (set_own s (match dptr s with Some [] => A7 r | _ => A3 r end))
    | A3 r => (* 1341-1343 *) match dptr s with None => Ok s | Some l => Ok (set_own (set_sfree (set_dptr s None) (Some l)) (A4 r)) end
    | A4 r => (* 1344 *) Ok (set_own (set_usd s (usd s - lsz s)) (A5 r))
    | A5 r => (* 1345 *) Ok (set_own (set_lsz s 0) (A6 r))
    | A6 r => (* 1346 *) Ok (set_own (set_dptr s (Some [])) (A7 r))
    | A7 r => (* 2097-2103: the block is given to the owner's caller *)
      do f <- full s; Ok (set_own (set_who (if f then set_part s false else s) r (Some 0)) OIdle)
    | D1 b => (* 2330-2337 *)
      do f <- full s;
      let s := if f then set_part (set_usd s cnt) true else s in
      match sfree s with None => UB | Some l => Ok (set_own (set_sfree (set_usd s (usd s - 1)) (Some (b :: l))) D2) end
    | D2 => (* 2338-2340 *) Ok (set_own s (if Nat.eqb (usd s) (lsz s) then (if Nat.eqb (usd s) 0 then D5 else D3) else OIdle))
    | D3 => (* 2344-2346 *) match dptr s with None => Ok s | Some l => Ok (set_own (set_dptr s None) (D4 l)) end
    | D4 l => (* 2347 *) Ok (set_own (set_dptr s (Some l)) D5)
    | D5 => (* 2349-2350 *) Ok (set_own (set_relsd (set_part s false) true) OIdle)
    end
  end.

(* what may happen next; calls are begun by threads that are not in the middle of one, for blocks they have *)
Inductive label :=
| LThr (i : nat) | LOwn
| LFreeBy (i b : nat)          (* another thread frees a block *)
| LAlloc (k : nat)             (* the owner allocates; k: how many blocks a page holds (free_list_partial_init) *)
| LFree (b : nat)              (* the owner frees a block *)
| LAdopt                       (* the owner takes back what others gave back *)
| LReuse (k : nat)             (* the owner takes the span from its caches for this class again *)
| LGive (i j b : nat)          (* a block passes from one thread to another *)
| LOther (x : nat).            (* another span is given back to the heap *)
Definition grant (k room : nat) : nat := Nat.max 1 (Nat.min k room).

Definition cstep (s : cs) (a : label) : outcome cs :=
  match a with
  | LThr i => thr_step s i
  | LOwn => own_step s
  | LFreeBy i b =>
    match i, thr_pc s i, who s b with
    | S _, TIdle, Some j => if Nat.eqb i j then (if relsd s then UB else Ok (set_thr (set_who s b None) i (F0 b))) else Ok s
    | _, _, _ => Ok s
    end
  | LAlloc k =>
    match own_pc s with
    | OIdle =>
      match cls s with
      | b :: r => Ok (set_who (set_cls s r) b (Some 0))
      | [] => if part s then
                if relsd s then UB else
                match sfree s with
                | None => UB
                | Some (b :: r) => (* 2077-2081, 2090 *) Ok (set_own (set_usd (set_sfree (set_cls s r) (Some [])) (lim s)) (A2 b))
                | Some [] => (* 2082-2090 *)
                  if (cnt <=? lim s)%nat then UB else
                  let n := grant k (cnt - lim s) in
                  Ok (set_own (set_usd (set_lim (set_cls s (seq (S (lim s)) (n - 1))) (lim s + n)) (lim s + n)) (A2 (lim s)))
                end
              else Ok s
      end
    | _ => Ok s
    end
  | LFree b =>
    match own_pc s, who s b with
    | OIdle, Some 0 => if relsd s then UB else Ok (set_own (set_who s b None) (D1 b))
    | _, _ => Ok s
    end
  | LAdopt =>
    match own_pc s with
    | OIdle => let s' := set_hdef s [] in
               if existsb (Nat.eqb 0) (hdef s) then (if relsd s then UB else Ok (set_relsd s' true)) else Ok s'
    | _ => Ok s
    end
  | LReuse k =>
    match own_pc s with
    | OIdle => if relsd s then
                 let n := grant k cnt in
                 Ok {| dptr := Some []; lsz := 0; sfree := Some []; lim := n; usd := n; part := (n <? cnt)%nat; cls := cls s ++ seq 1 (n - 1);
                       relsd := false; hdef := hdef s; who := upd (who s) 0 (Some 0); own_pc := OIdle; thr_pc := thr_pc s |}
               else Ok s
    | _ => Ok s
    end
  | LGive i j b => match who s b with Some h => if Nat.eqb h i then Ok (set_who s b (Some j)) else Ok s | None => Ok s end
  | LOther x => Ok (set_hdef s (S x :: hdef s))
  end.
Fixpoint crun (l : list label) (s : cs) : outcome cs :=
  match l with [] => Ok s | a :: r => do s' <- cstep s a; crun r s' end.
End Cnt.
(* the span in the caches, nothing given out *)
Definition cs0 : cs :=
  {| dptr := Some []; lsz := 0; sfree := Some []; lim := 0; usd := 0; part := false; cls := []; relsd := true; hdef := [];
     who := fun _ => None; own_pc := OIdle; thr_pc := fun _ => TIdle |}.
