(* C186, C187: copying a file on Linux. *)
From Coq Require Import ZArith List Bool Lia.
From Verif Require Import Base CyModel CyProofs.
Import ListNotations.

(* A copy that reports success holds what the source holds exactly if the first call of sendfile that transfers anything
   transfers everything. *)
Theorem C186_at_once_partial : forall fuel s c old r n, calm s c -> copy fuel s old = Ok (r, n) -> answer r = 0%Z ->
  (dest r = Some c <-> (c = [] \/ at_once s c)).
Proof. exact c186_iff. Qed.
Print Assumptions C186_at_once_partial.

(* so a file no longer than one call can transfer is copied if the system does not stop early *)
Theorem C186_whole_partial : forall fuel s c old m, calm s c -> 2 <= fuel -> length c <= limit s -> ans_ s 0 = Sent m -> length c <= m ->
  exists n, copy fuel s old = Ok (mkRes 0 (Some c) c [In_; Out_] [In_; Out_], n).
Proof. exact c186_whole. Qed.
Print Assumptions C186_whole_partial.

(* a longer one, up to twice as long, loses its end, and success is reported *)
Theorem C186_cut_refuted : forall fuel s c old m, calm s c -> 2 <= fuel -> limit s < length c -> length c <= 2 * limit s ->
  ans_ s 0 = Sent m -> limit s <= m ->
  exists n, copy fuel s old = Ok (mkRes 0 (Some (firstn (limit s) c)) c [In_; Out_] [In_; Out_], n).
Proof. exact c186_cut. Qed.
Print Assumptions C186_cut_refuted.

(* one longer still loses every second piece, and success is reported *)
Theorem C186_every_second_refuted : forall s c old n fuel, calm s c -> 0 < limit s ->
  (forall j, exists m, ans_ s j = Sent m /\ limit s <= m) -> length c <= 2 * limit s * n -> n < fuel ->
  exists k, copy fuel s old = Ok (mkRes 0 (Some (every_second n (limit s) c)) c [In_; Out_] [In_; Out_], k).
Proof. exact c186_pieces. Qed.
Print Assumptions C186_every_second_refuted.

(* the copying ends if every call of sendfile transfers something or fails *)
Theorem C186_ends_partial : forall s c old fuel, calm s c -> 0 < limit s -> (forall j, ans_ s j <> Sent 0) -> length c < fuel ->
  exists r n, copy fuel s old = Ok (r, n).
Proof. exact c186_ends. Qed.
Print Assumptions C186_ends_partial.

(* it never ends if the source is emptied by another after it was measured *)
Theorem C186_endless_refuted : forall fuel s old, open_ok s = true -> creat_ok s = true -> stat_ok s = true -> same s = false ->
  src s 0 <> [] -> (forall k, src s (S k) = []) -> (forall j, ans_ s j <> Err) -> copy fuel s old = Fuel.
Proof. exact c186_stuck. Qed.
Print Assumptions C186_endless_refuted.

(* every descriptor opened is closed, once *)
Theorem C187_closed : forall fuel s old r n, copy fuel s old = Ok (r, n) -> closed r = opened r.
Proof. exact c187_closed. Qed.
Print Assumptions C187_closed.

(* the answer is 0 exactly if opening, creating, measuring and every call of sendfile made succeeded, and -1 otherwise *)
Theorem C187_told_partial : forall fuel s old r n, copy fuel s old = Ok (r, n) ->
  (answer r = 0%Z \/ answer r = (-1)%Z) /\
  (answer r = 0%Z <-> open_ok s = true /\ creat_ok s = true /\ stat_ok s = true /\ forall j, j < n -> ans_ s j <> Err).
Proof. exact c187_told. Qed.
Print Assumptions C187_told_partial.

(* a source that cannot be opened, or a destination that cannot be made, leaves the destination alone *)
Theorem C187_unopened_partial : forall fuel s old, open_ok s = false \/ creat_ok s = false ->
  exists r, copy fuel s old = Ok (r, 0) /\ answer r = (-1)%Z /\ dest r = old.
Proof. exact c187_unopened. Qed.
Print Assumptions C187_unopened_partial.

(* the source is left alone, if it is another file *)
Theorem C187_source_partial : forall fuel s c old r n, same s = false -> (forall k, src s k = c) -> copy fuel s old = Ok (r, n) ->
  source r = c.
Proof. exact c187_source. Qed.
Print Assumptions C187_source_partial.

(* a file copied onto itself is emptied, and success is reported *)
Theorem C187_same_refuted : forall fuel s old, open_ok s = true -> creat_ok s = true -> stat_ok s = true -> same s = true -> 0 < fuel ->
  copy fuel s old = Ok (mkRes 0 (Some []) [] [In_; Out_] [In_; Out_], 0).
Proof. exact c187_same. Qed.
Print Assumptions C187_same_refuted.

(* a copy that fails has destroyed the former destination *)
Theorem C187_lost_refuted : forall fuel s old, open_ok s = true -> creat_ok s = true -> same s = false -> 0 < fuel -> src s 0 <> [] ->
  stat_ok s = false \/ ans_ s 0 = Err ->
  exists r n, copy fuel s old = Ok (r, n) /\ answer r = (-1)%Z /\ dest r = Some [].
Proof. exact c187_lost. Qed.
Print Assumptions C187_lost_refuted.

(* that the system could not store the bytes, which only close tells, is not noticed *)
Theorem C187_close_refuted : forall fuel s old r n, close_ok s = false -> copy fuel s old = Ok (r, n) -> answer r = 0%Z ->
  dest r = Some [].
Proof. exact c187_close. Qed.
Print Assumptions C187_close_refuted.

(* tests *)
Definition sys0 (c : list Z) (a : nat -> ans) (lim : nat) : sys := mkSys true true true true false (fun _ => c) a lim.
Definition all_ (n : nat) : ans := Sent 100.

Example t_calm : calm (sys0 [1; 2; 3]%Z all_ 100) [1; 2; 3]%Z.
Proof. repeat split. Qed.
Example t_whole : copy 9 (sys0 [1; 2; 3]%Z all_ 100) None = Ok (mkRes 0 (Some [1; 2; 3]%Z) [1; 2; 3]%Z [In_; Out_] [In_; Out_], 1).
Proof. reflexivity. Qed.
Example t_at_once : at_once (sys0 [1; 2; 3]%Z all_ 100) [1; 2; 3]%Z.
Proof. exists 0, 100. cbn. repeat split; try lia. intros j H. lia. Qed.
Example t_cut : copy 9 (sys0 [1; 2; 3]%Z all_ 2) None = Ok (mkRes 0 (Some [1; 2]%Z) [1; 2; 3]%Z [In_; Out_] [In_; Out_], 1).
Proof. reflexivity. Qed.
Example t_second : copy 9 (sys0 [1; 2; 3; 4; 5; 6; 7]%Z all_ 2) None =
  Ok (mkRes 0 (Some [1; 2; 5; 6]%Z) [1; 2; 3; 4; 5; 6; 7]%Z [In_; Out_] [In_; Out_], 2).
Proof. reflexivity. Qed.
Example t_late : copy 9 (sys0 [1; 2; 3]%Z (fun n => if Nat.eqb n 0 then Sent 0 else Sent 9) 100) (Some [8]%Z) =
  Ok (mkRes 0 (Some [1; 2; 3]%Z) [1; 2; 3]%Z [In_; Out_] [In_; Out_], 2).
Proof. reflexivity. Qed.
Example t_err : copy 9 (sys0 [1; 2; 3]%Z (fun n => if Nat.eqb n 0 then Sent 1 else Err) 100) (Some [8]%Z) =
  Ok (mkRes (-1) (Some [1]%Z) [1; 2; 3]%Z [In_; Out_] [In_; Out_], 2).
Proof. reflexivity. Qed.
Example t_noopen : copy 9 (mkSys false true true true false (fun _ => [1]%Z) all_ 5) (Some [8]%Z) = Ok (mkRes (-1) (Some [8]%Z) [1]%Z [] [], 0).
Proof. reflexivity. Qed.
Example t_nocreat : copy 9 (mkSys true false true true false (fun _ => [1]%Z) all_ 5) (Some [8]%Z) = Ok (mkRes (-1) (Some [8]%Z) [1]%Z [In_] [In_], 0).
Proof. reflexivity. Qed.
