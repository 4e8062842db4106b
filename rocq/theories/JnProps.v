(* C192: waiting for a thread to end. *)
From Coq Require Import ZArith List Bool.
From Verif Require Import Base JnModel JnProofs.
Import ListNotations.
Local Open Scope Z_scope.

(* with the timed joins (Linux, Windows): a thread that ends in time is joined when it ends, with the code it gave *)
Theorem C192_in_time : forall o s i t ms, o <> Unix -> 0 <= ms < 2 ^ 32 -> nth_error (ths s) i = Some t -> gone t = false ->
  within t (now s) ms ->
  exists c s', os_join o s i ms = Ok (Zero c, s') /\ meant (how t) c /\ ths s' = set_gone (ths s) i t /\ errno s' = errno s /\
    now s <= now s' /\ (ms <> 2 ^ 32 - 1 -> now s' <= now s + ms * 1000000) /\ (forall e, ends t = Some e -> now s' = Z.max (now s) e).
Proof. exact join_in_time. Qed.
Print Assumptions C192_in_time.

(* otherwise the call fails after exactly that time, and the thread is as before *)
Theorem C192_late : forall o s i t ms, o <> Unix -> 0 <= ms < 2 ^ 32 - 1 -> nth_error (ths s) i = Some t -> gone t = false ->
  ~ within t (now s) ms -> os_join o s i ms = Ok (Minus, mkS (ths s) (now s + ms * 1000000) ETIMEDOUT).
Proof. exact join_late. Qed.
Print Assumptions C192_late.

Theorem C192_no_limit : forall o s i t, nth_error (ths s) i = Some t -> gone t = false -> ends t = None ->
  os_join o s i (2 ^ 32 - 1) = Ok (Never, s).
Proof. exact join_never. Qed.
Print Assumptions C192_no_limit.

(* asking again and again: failures as long as the thread runs *)
Theorem C192_again : forall o i l s t, o <> Unix -> (forall ms, In ms l -> 0 <= ms < 2 ^ 32 - 1) ->
  nth_error (ths s) i = Some t -> gone t = false ->
  match ends t with Some e => now s + total l * 1000000 < e | None => True end ->
  exists er, run o s (tries i l) = Ok (map (fun _ => Minus) l, mkS (ths s) (now s + total l * 1000000) er).
Proof. exact tries_late. Qed.
Print Assumptions C192_again.

(* then one success at its end; a further call is undefined on Linux and fails on Windows *)
Theorem C192_once_refuted : forall o i p ms q s t e, o <> Unix -> (forall x, In x (p ++ [ms]) -> 0 <= x < 2 ^ 32 - 1) ->
  nth_error (ths s) i = Some t -> gone t = false ->
  ends t = Some e -> now s + total p * 1000000 < e <= now s + (total p + ms) * 1000000 -> q <> [] ->
  exists c s1, run o s (tries i (p ++ [ms])) = Ok (map (fun _ => Minus) p ++ [Zero c], s1) /\ meant (how t) c /\ now s1 = e /\
    match o with
    | Windows => exists s2, run o s (tries i (p ++ ms :: q)) = Ok (map (fun _ => Minus) p ++ Zero c :: map (fun _ => Minus) q, s2) /\ now s2 = e
    | _ => run o s (tries i (p ++ ms :: q)) = UB
    end.
Proof. exact tries_hit. Qed.
Print Assumptions C192_once_refuted.

(* without timed joins the time is ignored, 0 as well *)
Theorem C192_ignored_refuted : forall s i t ms, nth_error (ths s) i = Some t -> gone t = false ->
  match ends t with
  | None => os_join Unix s i ms = Ok (Never, s)
  | Some e => exists c s', os_join Unix s i ms = Ok (Zero c, s') /\ meant (how t) c /\ now s' = Z.max (now s) e /\ ths s' = set_gone (ths s) i t
  end.
Proof. exact unix_blocks. Qed.
Print Assumptions C192_ignored_refuted.

Theorem C192_detached_refuted : forall o s i t ms, nth_error (ths s) i = Some t -> gone t = false ->
  exists s', os_detach o s i = Ok (0, s') /\ now s' = now s /\
    match o with Windows => os_join o s' i ms = Ok (Minus, s') | _ => os_join o s' i ms = UB /\ os_detach o s' i = UB end.
Proof. exact detach_then. Qed.
Print Assumptions C192_detached_refuted.

(* whatever is called, no time is taken back *)
Theorem C192_later : forall o l s rs s', run o s l = Ok (rs, s') -> now s <= now s'.
Proof. exact run_later. Qed.
Print Assumptions C192_later.

(* tests *)
Definition w0 : st := mkS [mkT (Some 5000000) (Returns (-7) 99) false; mkT None (Exits 3) false] 1999999999 0.
Example ex_soon : run Linux w0 [Join 0 0] = Ok ([Zero (-7)], mkS [mkT (Some 5000000) (Returns (-7) 99) true; mkT None (Exits 3) false] 1999999999 0).
Proof. vm_compute. reflexivity. Qed.
Definition w1 : st := mkS [mkT (Some 2003000000) (Exits 4294967295) false] 1999999999 0.
Example ex_carry : addms (1, 999999999) 1001 = (3, 999999).
Proof. reflexivity. Qed.
Example ex_tries : match run Linux w1 [Join 0 0; Join 0 1; Join 0 5] with Ok (l, s) => (l, now s) | _ => ([], 0) end = ([Minus; Minus; Zero (-1)], 2003000000).
Proof. vm_compute. reflexivity. Qed.
(* tests/test-thread.c detaches after it joined *)
Example ex_test : run Linux w1 [Join 0 4294967295; Detach 0] = UB.
Proof. vm_compute. reflexivity. Qed.
