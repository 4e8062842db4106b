(* Runs of spans: statements.  See SmModel.v for the model and SmProofs6.v (legal, quiet, reach), SmProofs7.v
   (at_place, sound, covers) and SmProofs8.v (seen) for the words used *)
From Coq Require Import ZArith List Lia Bool Permutation.
From Verif Require Import Base SmModel SmProofs4 SmProofs6 SmProofs7 SmProofs8.
Import ListNotations.
Local Open Scope Z_scope.

(* Whatever the program does, runs of spans (in use, holding heaps, cached or reserved) lie in mapped memory and
   never overlap; a run is in one place only; what is mapped does not overlap *)
Theorem C142_runs_never_overlap : forall pps user hsc many (Q : st -> op -> Prop) s, 1 <= pps -> 0 <= user ->
  heap_sizes (config pps user) hsc many -> reach (config pps user) hsc many Q s -> sound s.
Proof. exact reach_sound. Qed.
Print Assumptions C142_runs_never_overlap.

(* No step touches a header outside mapped memory or unmaps anything else than what was mapped; a request is
   answered by a new run of at least as many spans, at most half more, or refused as the system refuses memory;
   giving back a run takes it from the program; all others keep their sizes *)
Theorem C142_every_step_is_safe : forall pps user hsc many (Q : st -> op -> Prop) s o, 1 <= pps -> 0 <= user ->
  heap_sizes (config pps user) hsc many -> reach (config pps user) hsc many Q s -> legal s o ->
  exists s', step (config pps user) hsc many s o = Ok s' /\ seen o s s' /\
    forall x, In x (cache s Held) -> In x (cache s' Held) -> h_cnt (hdrs s' x) = h_cnt (hdrs s x).
Proof. exact reach_step. Qed.
Print Assumptions C142_every_step_is_safe.

(* what is asked of the system is what is given back, and begins on a multiple of the span size *)
Theorem C142_unmapped_is_mapped : forall gran size raw addr off reg, 0 < gran -> 0 < size -> 0 < raw -> raw mod 8 = 0 -> mmap_os gran size raw = (addr, off, reg) ->
  reg = (raw, snd reg) /\ unmap_os gran addr off size = reg /\ raw <= addr /\ addr + size <= raw + snd reg /\ (65536 <= size -> gran < 65536 -> addr mod 65536 = 0) /\
  0 <= off < 65536.
Proof. exact mmap_unmap. Qed.
Print Assumptions C142_unmapped_is_mapped.

Example C142_aligned : mmap_os 4096 131072 (65536 + 4096) = (131072, 7680, (69632, 196608)) /\ unmap_os 4096 131072 7680 131072 = (69632, 196608).
Proof. vm_compute. auto. Qed.

(* the caches stay within their arrays *)
Theorem C143_caches_fit : forall pps user hsc many (Q : st -> op -> Prop) s, 1 <= pps -> 0 <= user -> heap_sizes (config pps user) hsc many ->
  reach (config pps user) hsc many Q s ->
  (forall h n, (length (cache s (TC h n)) < (if Nat.eqb n 1 then 400 else 100))%nat) /\
  (forall n, (length (cache s (GC n)) <= (if Nat.eqb n 1 then 3200 else 800))%nat) /\
  (forall h k, (length (cache s (CC h k)) <= 1)%nat).
Proof. exact reach_limits. Qed.
Print Assumptions C143_caches_fit.

(* a thread that ends hands over its caches, and touches no other's *)
Theorem C143_exit_hands_over : forall pps user hsc many (Q : st -> op -> Prop) s h, 1 <= pps -> 0 <= user -> heap_sizes (config pps user) hsc many ->
  reach (config pps user) hsc many Q s ->
  exists s', step (config pps user) hsc many s (Exit h) = Ok s' /\ cache s' (DF h) = [] /\ (forall n, cache s' (TC h n) = []) /\
    (forall g, hres s' g = hres s g) /\ (forall g n, g <> h -> cache s' (TC g n) = cache s (TC g n)).
Proof. exact reach_exit. Qed.
Print Assumptions C143_exit_hands_over.

(* what is mapped has not been forgotten: its first span is in a run that is somewhere *)
Theorem C143_nothing_forgotten_partial : forall pps user hsc many (Q : st -> op -> Prop) s, 1 <= pps -> 0 <= user -> heap_sizes (config pps user) hsc many ->
  (pps <= 64 /\ user <= 64 \/ (forall s o, Q s o -> quiet hsc s o)) -> reach (config pps user) hsc many Q s ->
  forall m t, In (m, t) (maps s) -> exists p n, at_place s p m n.
Proof. exact reach_first. Qed.
Print Assumptions C143_nothing_forgotten_partial.

(* at the end all memory is given back *)
Theorem C143_finalize_gives_all_back_partial : forall pps user hsc many (Q : st -> op -> Prop) s hs h0 classes, 1 <= pps -> 0 <= user -> heap_sizes (config pps user) hsc many ->
  (pps <= 64 /\ user <= 64 \/ (forall s o, Q s o -> quiet hsc s o)) -> reach (config pps user) hsc many Q s -> In h0 hs -> covers s hs classes ->
  exists s', finalize (config pps user) classes s hs h0 = Ok s' /\ maps s' = [].
Proof. exact reach_finalize. Qed.
Print Assumptions C143_finalize_gives_all_back_partial.

(* it is not, with pages of more than 64 spans: new heaps overwrite what is left of the global reserve *)
Theorem C143_finalize_gives_all_back_refuted : exists s s', heap_sizes (config 128 0) 14 14 /\ reach (config 128 0) 14 14 any s /\ covers s [0; 1]%nat 0 /\
  finalize (config 128 0) 0 s [0; 1]%nat 0 = Ok s' /\ maps s' <> [].
Proof. exact spans_lost. Qed.
Print Assumptions C143_finalize_gives_all_back_refuted.

(* a program under the default settings: pages of 4 KiB, 64 spans mapped at once *)
Example C143_default_program :
  exists s, playb (config 1 0) 1 1 st0 [NewHeap 0 bump; Alloc 0 (Some 3%nat) 1 bump; Alloc 0 None 5 bump; FreeLarge 0 3; Alloc 0 None 4 bump; FreeSpan 0 3 2; Exit 0] = Some s /\
    cache s Held = [8] /\ cache s (GC 5) = [3] /\ cache s (CC 0 3) = [2] /\ maps s = [(2, 64); (1, 1)].
Proof. eexists. split; [vm_compute; reflexivity|]. vm_compute. auto. Qed.
