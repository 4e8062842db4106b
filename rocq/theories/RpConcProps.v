(* One span of rpmalloc shared between threads: the theorems. *)
From Verif Require Import Base DllModel RpConcModel RpConcProofs.
From Coq Require Import List Lia Arith Bool.
Import ListNotations.

(* ---- C110: blocks freed by other threads while the owner allocates and frees ---- *)
(* the span is not touched after it went to the caches, and its link is not used as a free list *)
Theorem C110_safe : forall cnt, 0 < cnt -> forall l, exists s, crun cnt l cs0 = Ok s.
Proof. exact safe. Qed.
(* no block is given out twice, and the span goes to the caches only when no block is out *)
Theorem C110_callers : forall cnt, 0 < cnt -> forall l, fair cnt [] (history cnt cs0 l).
Proof. exact callers. Qed.
(* the mark in place of the deferred list is a lock *)
Theorem C110_lock : forall cnt, 0 < cnt -> forall l s, crun cnt l cs0 = Ok s ->
  (dptr s = None <-> exists i, inside s i) /\ forall i j, inside s i -> inside s j -> i = j.
Proof. exact lock_one. Qed.
Theorem C110_lock_ends : forall cnt, 0 < cnt -> forall l s i, crun cnt l cs0 = Ok s -> inside s i ->
  exists n s', n <= 3 /\ crun cnt (repeat (match i with O => LOwn | S i => LThr i end) n) s = Ok s' /\ dptr s' <> None.
Proof. exact lock_end. Qed.
(* when nobody is in a call, every block is in exactly one place and the counters agree with the lists *)
Theorem C110_accounted : forall cnt, 0 < cnt -> forall l s, crun cnt l cs0 = Ok s -> idle s -> relsd s = false ->
  (forall b, b < cnt -> exists w, is_at s b w /\ forall w', is_at s b w' -> w' = w)
  /\ exists d, dptr s = Some d /\ NoDup d /\ (~ In 0 (hdef s) -> lsz s = length d)
  /\ (~ In 0 (hdef s) -> exists f, sfree s = Some f /\ NoDup f /\ usd s + length f = lim s).
Proof. exact settled. Qed.
Theorem C110_handed_back_once : forall cnt, 0 < cnt -> forall l s, crun cnt l cs0 = Ok s ->
  count_occ Nat.eq_dec (hdef s) 0 <= 1 /\ (In 0 (hdef s) -> relsd s = false /\ part s = false /\ forall b, who s b = None).
Proof. exact once. Qed.
Print Assumptions C110_safe.
Print Assumptions C110_callers.
Print Assumptions C110_lock.
Print Assumptions C110_lock_ends.
Print Assumptions C110_accounted.
Print Assumptions C110_handed_back_once.

(* ---- C111: a span whose blocks are all back ---- *)
Theorem C111_found_again_partial : forall cnt, 0 < cnt -> forall l s, crun cnt l cs0 = Ok s -> idle s -> (forall b, who s b = None) ->
  relsd s = true \/ count_occ Nat.eq_dec (hdef s) 0 = 1 \/ part s = true \/ cls s <> [].
Proof. exact findable. Qed.
Theorem C111_given_back_refuted : exists l s, crun 2 l cs0 = Ok s /\ idle s /\ (forall b, who s b = None) /\ cls s = [] /\ relsd s = false /\ hdef s = [].
Proof. exact kept. Qed.
Print Assumptions C111_found_again_partial.
Print Assumptions C111_given_back_refuted.

(* ---- examples ---- *)
(* three blocks to three threads, freed at once; the last one hands the span back, the owner adopts and reuses it *)
Definition ex_all : list label :=
  [LReuse 3; LAlloc 0; LAlloc 0; LGive 0 1 0; LGive 0 2 1; LGive 0 3 2;
   LFreeBy 1 0; LFreeBy 2 1; LFreeBy 3 2; LThr 2; LThr 1; LThr 3; LThr 2; LThr 2; LThr 1; LThr 3; LThr 1; LThr 1; LThr 3; LThr 3;
   LOther 4; LThr 3; LThr 3; LOther 5; LThr 3; LThr 3; LThr 3; LThr 3].
Example ex_all_handed : (do s <- crun 3 ex_all cs0; Ok (hdef s, dptr s, lsz s)) = Ok ([0; 6; 5], Some [2; 0; 1], 3).
Proof. vm_compute. reflexivity. Qed.
Example ex_all_events : history 3 cs0 (ex_all ++ [LAdopt; LReuse 1]) = [Out 0; Out 1; Out 2; In_ 0; In_ 1; In_ 2; Back; Out 0].
Proof. vm_compute. reflexivity. Qed.
(* the owner frees its block while thread 1 has counted but not stored: it waits for thread 1 before the span goes *)
Definition ex_sync : list label :=
  [LReuse 2; LAlloc 0; LGive 0 1 0; LFreeBy 1 0; LThr 1; LThr 1; LFree 1; LOwn; LOwn; LOwn; LOwn].
Example ex_sync_waits : (do s <- crun 2 ex_sync cs0; Ok (own_pc s, dptr s)) = Ok (D3, None).
Proof. vm_compute. reflexivity. Qed.
Example ex_sync_goes : (do s <- crun 2 (ex_sync ++ [LThr 1; LOwn; LOwn; LOwn]) cs0; Ok (relsd s)) = Ok true.
Proof. vm_compute. reflexivity. Qed.
(* an allocation takes the deferred blocks over *)
Example ex_take :
  (do s <- crun 2 [LReuse 1; LGive 0 1 0; LFreeBy 1 0; LThr 1; LThr 1; LThr 1; LAlloc 1; LOwn; LOwn; LOwn; LOwn; LOwn; LOwn] cs0;
   Ok (sfree s, usd s, who s 1, part s)) = Ok (Some [0], 1, Some 0, true).
Proof. vm_compute. reflexivity. Qed.
(* `fair` rules something out *)
Example ex_unfair : ~ fair 3 [] [Out 0; Out 0] /\ ~ fair 3 [] [Out 0; Back].
Proof. cbn. split; intros H; decompose [and] H; try discriminate; tauto. Qed.
