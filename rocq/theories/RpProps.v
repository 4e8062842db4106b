(* Properties of the memory allocator (RpModel.v): C90-C93 *)
From Verif Require Import Base RpModel RpProofs.
Local Open Scope Z_scope.

(* C90: a block handed out holds at least the bytes asked for and is aligned for any object.  [reach h live]:
   any sequence of allocations, aligned allocations, reallocations and frees by the owner or other threads *)
Theorem C90_block_holds_request h live size ad src p h' : reach h live -> 0 <= size <= 2 ^ 43 ->
  alloc h size ad src = (Some p, h') -> size <= usable_size h' p /\ p mod 16 = 0 /\ 0 < p.
Proof. exact (alloc_holds h live size ad src p h'). Qed.
Print Assumptions C90_block_holds_request.

Theorem C90_calloc_holds_request h live num size ad src p h' : reach h live -> 0 <= num -> 0 <= size -> num * size <= 2 ^ 43 ->
  calloc h num size ad src = (Some p, h') -> num * size <= usable_size h' p /\ p mod 16 = 0 /\ 0 < p.
Proof. exact (calloc_holds h live num size ad src p h'). Qed.
Print Assumptions C90_calloc_holds_request.

Theorem C90_stays_large_enough h live p size : reach h live -> In (p, size) live -> size <= 2 ^ 43 -> size <= usable_size h p.
Proof. exact (live_usable h live p size). Qed.
Print Assumptions C90_stays_large_enough.

(* what a block offers never reaches into another live block *)
Theorem C90_usable_is_own h l1 p size l2 q sz : reach h (l1 ++ (p, size) :: l2) -> In (q, sz) (l1 ++ l2) ->
  p + usable_size h p <= q \/ q + bytes sz <= p.
Proof. exact (usable_apart h l1 p size l2 q sz). Qed.
Print Assumptions C90_usable_is_own.

(* false for huge sizes: adding the span header wraps round *)
Theorem C90_wraps_refuted : exists size p h', 0 <= size < 2 ^ 64 /\ alloc heap0 size true (FromMap 0) = (Some p, h') /\ usable_size h' p < size.
Proof.
  exists (2 ^ 64 - 1). eexists. eexists. split; [lia|]. split; [reflexivity|]. vm_compute. reflexivity.
Qed.
Print Assumptions C90_wraps_refuted.

(* false for zeroed arrays: the product wraps round *)
Theorem C90_calloc_refuted : exists num size p h', 0 <= num < 2 ^ 64 /\ 0 <= size < 2 ^ 64 /\
  calloc heap0 num size true (FromMap 0) = (Some p, h') /\ usable_size h' p < num * size.
Proof.
  exists (2 ^ 32), (2 ^ 32). eexists. eexists. split; [lia|]. split; [lia|]. split; [vm_compute; reflexivity|]. vm_compute. reflexivity.
Qed.
Print Assumptions C90_calloc_refuted.

(* false from 16 TiB on: the page count is kept in 32 bits *)
Theorem C90_pages_refuted : exists size p h', 0 <= size <= max_size /\ alloc heap0 size true (FromMap 0) = (Some p, h') /\ usable_size h' p < size.
Proof.
  exists (2 ^ 44). eexists. eexists. split; [unfold max_size; lia|]. split; [reflexivity|]. vm_compute. reflexivity.
Qed.
Print Assumptions C90_pages_refuted.

(* C91: blocks in use never share a byte, whatever was allocated, moved and freed before *)
Theorem C91_live_blocks_apart h l1 e l2 f : reach h (l1 ++ e :: l2) -> In f (l1 ++ l2) -> apart e f.
Proof. exact (live_apart h l1 e l2 f). Qed.
Print Assumptions C91_live_blocks_apart.

(* the blocks waiting in the free lists, and the links kept in them, are outside every block in use *)
Theorem C91_free_blocks_apart h live p size c x : reach h live -> In (p, size) live -> In x (h_free h c) ->
  p + bytes size <= x \/ x + 8 <= p.
Proof. exact (live_links h live p size c x). Qed.
Print Assumptions C91_free_blocks_apart.

Example C91_reuse :
  match alloc heap0 100 true (FromMap 3) with
  | (Some p, h) => match alloc h 100 true NoMemory with
                   | (Some q, h) => match alloc (free h true p) 100 true NoMemory with (Some r, _) => (p <? q) && (q <? r) | _ => false end
                   | _ => false end
  | _ => false end = true.
Proof. vm_compute. reflexivity. Qed.

(* C92: aligned allocation: the block is aligned as asked and holds the bytes *)
Theorem C92_aligned_up_to_page h live al size ad src p h' : reach h live -> 0 <= size <= 2 ^ 43 -> pow2 al -> al <= 4096 ->
  aligned_alloc h al size ad src = (Some p, h') -> size <= usable_size h' p /\ p mod al = 0.
Proof. exact (aligned_holds h live al size ad src p h'). Qed.
Print Assumptions C92_aligned_up_to_page.

Theorem C92_aligned_above_page al size raw fuel r : 4096 < al < 65536 -> pow2 al -> 0 <= size -> (forall j, 0 <= raw j) ->
  aligned_map fuel raw al size = Ok (Some r) -> map_ok raw al size r.
Proof. exact (map_holds al size raw fuel r). Qed.
Print Assumptions C92_aligned_above_page.

Theorem C92_above_page_succeeds al size raw fuel : 4096 < al < 65536 -> pow2 al -> 0 <= size -> (forall j, 0 < raw j) ->
  size / PAGE + 16 < Z.of_nat fuel -> exists r, aligned_map fuel raw al size = Ok (Some r).
Proof. exact (map_succeeds al size raw fuel). Qed.
Print Assumptions C92_above_page_succeeds.

Theorem C92_bad_alignment_refused al size raw fuel : 65536 <= al \/ (0 < al /\ ~ pow2 al) -> aligned_map fuel raw al size = Ok None.
Proof. exact (map_refused al size raw fuel). Qed.
Print Assumptions C92_bad_alignment_refused.

(* up to the page size an alignment that is no power of two is not refused, and not honoured *)
Theorem C92_odd_alignment_refuted : exists al p h', 16 < al <= 4096 /\ ~ pow2 al /\
  aligned_alloc heap0 al 100 true (FromMap 0) = (Some p, h') /\ p mod al <> 0.
Proof.
  exists 20. eexists. eexists. split; [lia|]. split.
  - intros [k [K E]]. assert (k <= 4 \/ 5 <= k) as [L | L] by lia.
    + assert (2 ^ k <= 2 ^ 4) by (apply Z.pow_le_mono_r; lia). lia.
    + assert (2 ^ 5 <= 2 ^ k) by (apply Z.pow_le_mono_r; lia). lia.
  - split; [vm_compute; reflexivity | vm_compute; intros X; discriminate X].
Qed.
Print Assumptions C92_odd_alignment_refuted.

Example C92_somewhere : exists r, aligned_map 60 (fun k => 4096 * (7 + Z.of_nat k)) 8192 1000 = Ok (Some r).
Proof. eexists. vm_compute. reflexivity. Qed.

(* C93: changing the size of a block keeps its bytes up to the smaller of the two sizes and those of all
   other blocks; when it fails the block stays as it was *)
Theorem C93_realloc_keeps_bytes h l1 p old l2 m noise size ad src r h' m' :
  reach h (l1 ++ (p, old) :: l2) -> 0 <= size <= 2 ^ 62 -> old <= 2 ^ 43 -> realloc h m noise p size ad src = (r, h', m') ->
  match r with
  | Some q => (forall k, 0 <= k < old -> k < size -> m' (q + k) = m (p + k)) /\ kept m m' (l1 ++ l2)
      /\ (size <= 2 ^ 43 -> size <= usable_size h' q)
  | None => kept m m' (l1 ++ (p, old) :: l2)
  end.
Proof. exact (realloc_holds h l1 p old l2 m noise size ad src r h' m'). Qed.
Print Assumptions C93_realloc_keeps_bytes.

(* allocating and freeing write nothing into the other blocks *)
Theorem C93_alloc_keeps_others h live size ad src r h' m noise c : reach h live -> 0 <= size <= max_size ->
  alloc h size ad src = (r, h') -> kept m (scribble m noise (h_free h' c)) live.
Proof. exact (alloc_kept h live size ad src r h' m noise c). Qed.
Print Assumptions C93_alloc_keeps_others.

Theorem C93_free_keeps_others h l1 p size l2 m noise : reach h (l1 ++ (p, size) :: l2) -> kept m (scribble m noise [block_at h p]) (l1 ++ l2).
Proof. exact (free_kept h l1 p size l2 m noise). Qed.
Print Assumptions C93_free_keeps_others.

Example C93_moves :
  match alloc heap0 20 true (FromMap 3) with
  | (Some p, h) => match realloc h (fun x => x) (fun _ => 0) p 4000 true (FromPool 0 true) with
                   | (Some q, _, m) => negb (q =? p) && (m (q + 19) =? p + 19)
                   | _ => false end
  | _ => false end = true.
Proof. vm_compute. reflexivity. Qed.
