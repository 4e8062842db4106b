(* C176, C177: memory given to defer_free, and mem_printf *)
From Coq Require Import ZArith List Bool Lia.
From Verif Require Import Base DmModel DmProofs DmProofs2 DmProofs3.
Import ListNotations.
Open Scope Z_scope.

(* If no text begins with the number of a type and before no block, at the distance of an array's head, stands the number of an
   array type: every block is freed once, every deferred function called once with its argument, the latest first *)
Theorem C176_released_partial : forall (link : Z -> Z) (head : Z -> option Z) (M : Z) (own : bool) (place : nat -> Z),
  0 < M /\ M mod 8 = 0 -> (forall a, word (link a) /\ ~ In (link a mod 2 ^ 32) [31; 32; 33; 34]) ->
  forall m0 l, bytes m0 -> Forall (proper' own) l -> Forall placed (items place l) -> apart M (items place l) ->
  let s := run own M place (init m0) l in
  Forall (quiet M (mem s)) (items place l) ->
  exists s', finish link head M s = Ok s' /\ out s' = flat_map due (rev (items place l)) /\
    live s' = map fst (filter object (items place l)).
Proof. exact released. Qed.
Print Assumptions C176_released_partial.

(* For any function and argument there is a text whose copy is taken for the order to call that function *)
Theorem C176_forged_refuted : forall (link : Z -> Z) (head : Z -> option Z) (M : Z) (place : nat -> Z),
  0 < M /\ M mod 8 = 0 -> (forall a, word (link a) /\ ~ In (link a mod 2 ^ 32) [31; 32; 33; 34]) ->
  forall own m0 f d, bytes m0 -> word f -> word d -> placed (place 0%nat, Text []) ->
  ~ In (val m0 (place 0%nat - M) 4) [31; 32; 33; 34] ->
  exists s', finish link head M (run own M place (init m0) [Text (forged f d)]) = Ok s' /\ out s' = [Call f d; Free (place 0%nat)].
Proof. exact forged_called. Qed.
Print Assumptions C176_forged_refuted.

(* The copy of "%": a call of whatever stands 32 bytes on, behind the block *)
Theorem C176_percent_refuted : forall (link : Z -> Z) (head : Z -> option Z) (M : Z) (place : nat -> Z),
  0 < M /\ M mod 8 = 0 -> (forall a, word (link a) /\ ~ In (link a mod 2 ^ 32) [31; 32; 33; 34]) ->
  forall own m0, bytes m0 -> placed (place 0%nat, Text []) -> ~ In (val m0 (place 0%nat - M) 4) [31; 32; 33; 34] ->
  (forall i, 0 <= i < 8 -> m0 (place 0%nat + i) = 0) ->
  exists s', finish link head M (run own M place (init m0) [Text [37]]) = Ok s' /\
    out s' = [Call (val m0 (place 0%nat + 32) 8) (val m0 (place 0%nat + 8) 8); Free (place 0%nat)].
Proof. exact percent_called. Qed.
Print Assumptions C176_percent_refuted.

(* The copies of "#" and "$": a call of whatever stands 16 bytes on, and the block is never freed *)
Theorem C176_hash_refuted : forall (link : Z -> Z) (head : Z -> option Z) (M : Z) (place : nat -> Z),
  0 < M /\ M mod 8 = 0 -> (forall a, word (link a) /\ ~ In (link a mod 2 ^ 32) [31; 32; 33; 34]) ->
  forall own m0 c, bytes m0 -> c = 35 \/ c = 36 -> placed (place 0%nat, Text []) ->
  ~ In (val m0 (place 0%nat - M) 4) [31; 32; 33; 34] -> m0 (place 0%nat + 2) = 0 -> m0 (place 0%nat + 3) = 0 ->
  exists s', finish link head M (run own M place (init m0) [Text [c]]) = Ok s' /\
    out s' = [Call (val m0 (place 0%nat + 16) 8) (place 0%nat)] /\ live s' = [place 0%nat].
Proof. exact hash_called. Qed.
Print Assumptions C176_hash_refuted.

(* The copy of " " stands as far before another block as an array's head would: it is freed twice *)
Theorem C176_space_refuted : forall (link : Z -> Z) (head : Z -> option Z) (M : Z) (place : nat -> Z),
  0 < M /\ M mod 8 = 0 -> (forall a, word (link a) /\ ~ In (link a mod 2 ^ 32) [31; 32; 33; 34]) ->
  forall m0 l t, let p := Text [32] :: l ++ [Text t] in
  bytes m0 -> Forall (proper' true) p -> Forall placed (items place p) -> apart M (items place p) ->
  (forall a, ~ In (link a mod 2 ^ 32) [21; 35; 36; 37]) ->
  m0 (place 0%nat + 2) = 0 -> m0 (place 0%nat + 3) = 0 -> place (S (length l)) = place 0%nat + M ->
  let s := run true M place (init m0) p in
  Forall (quiet M (mem s)) (items place (Text [32] :: l)) ->
  finish link head M s = UB.
Proof. exact space_freed. Qed.
Print Assumptions C176_space_refuted.

(* A text that is not empty is returned with its length, its last byte is followed by zero, and the block is to be released *)
Theorem C177_text_partial : forall own s a c t, t <> [] ->
  exists s', mem_printf own s a c t = (Some a, Z.of_nat (length t), s') /\ gar s' = gar s ++ [a] /\
    (forall i, (i < length t)%nat -> mem s' (a + Z.of_nat i) = nth i t 0) /\ mem s' (a + Z.of_nat (length t)) = 0.
Proof. exact printf_text. Qed.
Print Assumptions C177_text_partial.

(* An empty text: NULL, the count is not set, and the block is never released *)
Theorem C177_empty_refuted : forall (link : Z -> Z) (head : Z -> option Z) (M : Z) (place : nat -> Z) own m0 c,
  exists s', mem_printf own (init m0) (place 0%nat) c [] = (None, c, s') /\
    exists s'', finish link head M s' = Ok s'' /\ out s'' = [] /\ live s'' ++ sys s'' = [place 0%nat].
Proof. exact printf_empty. Qed.
Print Assumptions C177_empty_refuted.

(* With the C library's vasprintf and the library's own allocator: the block is kept for ever, or worse *)
Theorem C177_foreign_refuted : forall (link : Z -> Z) (head : Z -> option Z) (M : Z) (place : nat -> Z),
  0 < M /\ M mod 8 = 0 -> (forall a, word (link a) /\ ~ In (link a mod 2 ^ 32) [31; 32; 33; 34]) ->
  forall m0 t, bytes m0 -> t <> [] -> Forall byte t -> calm t -> placed (place 0%nat, Text []) ->
  ~ In (val m0 (place 0%nat - M) 4) [31; 32; 33; 34] ->
  let r := finish link head M (run false M place (init m0) [Printf t]) in
  r = UB \/ (exists s', r = Ok s' /\ out s' = [] /\ sys s' = [place 0%nat]).
Proof. exact printf_foreign. Qed.
Print Assumptions C177_foreign_refuted.

(* not vacuous *)
Definition zero (_ : Z) : Z := 0.
Definition far (i : nat) : Z := 2 ^ 30 + 256 * Z.of_nat i.
Definition prog : list op :=
  [Text [104; 105]; Func 1000 2000; Array 31 [1; 2; 3]; Object 21 3000; Printf [97; 37]; Value 5 6; Text []].

Example prog_ok : Forall (proper' true) prog /\ Forall placed (items far prog) /\ apart 96 (items far prog) /\
  Forall (quiet 96 (mem (run true 96 far (init zero) prog))) (items far prog).
Proof.
  assert (C : forall b r, ~ In b [21; 35; 36; 37] -> calm (b :: r)).
  { intros b r N (b' & r' & E & I0 & _). injection E as -> ->. contradiction. }
  repeat split.
  - unfold prog. repeat (apply Forall_cons || apply Forall_nil); split; cbn; try exact Logic.I; unfold word, byte;
      repeat split; auto; try lia; try discriminate; try (apply C; cbn; lia); repeat constructor; try lia.
    intros (b & r & E & _). discriminate.
  - cbn. repeat constructor; cbn; lia.
  - intros i j x y N Ei Ej. cbn in Ei, Ej. destruct i as [|[|[|[|[|[|[|i]]]]]]]; try (destruct i; discriminate Ei);
      destruct j as [|[|[|[|[|[|[|j]]]]]]]; try (destruct j; discriminate Ej); try congruence; cbn in Ei, Ej;
      injection Ei as <-; injection Ej as <-; unfold sep, size; cbn; lia.
  - cbn [items prog]. unfold items. cbn [length prog seq map combine].
    repeat (apply Forall_cons || apply Forall_nil); unfold quiet; cbn [snd fst]; try exact Logic.I;
      match goal with |- ~ In ?v _ => let w := eval vm_compute in v in replace v with w by (vm_compute; reflexivity) end; cbn; lia.
Qed.
Example prog_out : match finish zero (fun _ => None) 96 (run true 96 far (init zero) prog) with
  | Ok s => out s = [Free (far 6); Call 5 6; Free (far 5); Free (far 4); Call 3000 (far 3); Free (far 2); Call 1000 2000; Free (far 1); Free (far 0)]
            /\ live s = [far 3]
  | _ => False end.
Proof. vm_compute. split; reflexivity. Qed.
(* str_dup(" ") and six other short texts, in blocks of 16 bytes that follow each other *)
Example seven : finish zero (fun _ => None) 96 (run true 96 (fun i => 2 ^ 30 + 16 * Z.of_nat i) (init zero)
  [Text [32]; Text [97]; Text [98]; Text [99]; Text [100]; Text [101]; Text [102]]) = UB.
Proof. vm_compute. reflexivity. Qed.
