(* C193: events_fd_type. *)
From Coq Require Import ZArith List Bool.
From Verif Require Import Base FtModel FtProofs.
Import ListNotations.
Local Open Scope Z_scope.

(* Unix: the kind is told by the four bits above the permissions, whatever else is in the mode *)
Theorem C193_kind : forall neg m d k, In (d, k) kinds -> (m / 4096) mod 16 = d -> unix_type neg (Some m) = k.
Proof. exact unix_known. Qed.
Print Assumptions C193_kind.

Theorem C193_unknown : forall neg m, (forall d k, In (d, k) kinds -> (m / 4096) mod 16 <> d) -> unix_type neg (Some m) = UNKNOWN.
Proof. exact unix_unknown. Qed.
Print Assumptions C193_unknown.

(* what is no descriptor is told from every kind, but is negative only if the compiler takes a signed type *)
Theorem C193_error_refuted : forall neg m, unix_type neg None <> unix_type neg (Some m) /\ (unix_type neg None < 0 <-> neg = true).
Proof. exact unix_error. Qed.
Print Assumptions C193_error_refuted.

(* Windows: the answer has nothing to do with the descriptor: unknown, as the address of a variable is no handle *)
Theorem C193_windows_refuted : forall sys of addr fd, sys addr = None -> windows_type sys of addr fd = UNKNOWN.
Proof. exact windows_blind. Qed.
Print Assumptions C193_windows_refuted.

(* and if it were given the handle: only files that have one of three attributes and no other *)
Theorem C193_attributes_refuted : forall a, 0 <= a -> (handle_type (Some (Disk (Some a))) <> UNKNOWN <-> a = 128 \/ a = 16 \/ a = 1024).
Proof. exact attributes_whole. Qed.
Print Assumptions C193_attributes_refuted.

(* and which answer stands for which kind *)
Theorem C193_handle : forall h,
  (handle_type h = CHR <-> h = Some Char) /\ (handle_type h = BLK <-> h = Some (Disk None)) /\
  (handle_type h = FIFO <-> h = Some (Pipe true)) /\ (handle_type h = SOCK <-> h = Some (Pipe false)) /\
  (handle_type h = REG <-> h = Some (Disk (Some 128))) /\ (handle_type h = DIR <-> h = Some (Disk (Some 16))) /\
  (handle_type h = LNK <-> h = Some (Disk (Some 1024))).
Proof. exact handles. Qed.
Print Assumptions C193_handle.

(* tests: modes 0100644, 040755, 010600, 0140777, 020620, 060660, 0120777 *)
Example ex_modes : map (fun m => unix_type false (Some m)) [33188; 16877; 4480; 49663; 8592; 25008; 41471]
  = [REG; DIR; FIFO; SOCK; CHR; BLK; LNK].
Proof. reflexivity. Qed.
(* a regular file as Windows makes it has the attribute 32 (archive) *)
Example ex_archive : handle_type (Some (Disk (Some 32))) = UNKNOWN.
Proof. reflexivity. Qed.
Example ex_bad : unix_type false None = 4294967295.
Proof. reflexivity. Qed.
