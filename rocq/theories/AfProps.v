(* C194: the processors of a thread. *)
From Coq Require Import ZArith List Bool.
From Verif Require Import Base AfModel AfProofs.
Import ListNotations.
Local Open Scope Z_scope.

(* Linux: the thread runs on the processors of the mask that there are, or everything stays and the answer is EINVAL; numbers from
   1024 on are ignored *)
Theorem C194_linux : forall avail now l, Forall (Z.le 0) l ->
  exists m, sets linux_set linux_zero l = Ok m /\
    let r := linux_affinity avail m now in
    ((exists i, In i l /\ i < 1024 /\ avail i = true) -> fst r = 0 /\ only (snd r) (fun j => In j l /\ j < 1024 /\ avail j = true)) /\
    (~ (exists i, In i l /\ i < 1024 /\ avail i = true) -> r = (22, now)).
Proof. exact linux_ok. Qed.
Print Assumptions C194_linux.

(* Windows: all of them, and at least one, must be the process's *)
Theorem C194_windows : forall w p now l, Forall (fun i => 0 <= i < w) l ->
  exists v, sets (win_set w) 0 l = Ok v /\
    let r := win_affinity p v now in
    (l <> [] /\ (forall i, In i l -> Z.testbit p i = true) -> fst r = 0 /\ only (Z.testbit (snd r)) (fun j => In j l)) /\
    (~ (l <> [] /\ forall i, In i l -> Z.testbit p i = true) -> r = (1, now)).
Proof. exact win_ok. Qed.
Print Assumptions C194_windows.

Theorem C194_windows_big_refuted : forall w v l, Exists (fun i => w <= i) l -> sets (win_set w) v l = UB.
Proof. exact win_big. Qed.
Print Assumptions C194_windows_big_refuted.

(* macOS: only the first of the processors counts *)
Theorem C194_mac_first_refuted : forall l t, Forall (fun i => 0 <= i < 31) l -> In t l -> (forall i, In i l -> t <= i) ->
  exists c, sets mac_set 0 l = Ok c /\ mac_affinity c = Ok (0, t).
Proof. exact mac_ok. Qed.
Print Assumptions C194_mac_first_refuted.

Theorem C194_mac_none_refuted : mac_affinity 0 = UB.
Proof. exact mac_none. Qed.
Print Assumptions C194_mac_none_refuted.

Theorem C194_mac_big_refuted : forall c l, Exists (fun i => 31 <= i) l -> sets mac_set c l = UB.
Proof. exact mac_big. Qed.
Print Assumptions C194_mac_big_refuted.

(* the processors of the machine on macOS: up to 31 *)
Theorem C194_mac_cores : forall n, (n <= 31)%nat -> exists c, mac_getaffinity n = Ok c /\ only (Z.testbit c) (fun j => j < Z.of_nat n).
Proof. exact mac_cores. Qed.
Print Assumptions C194_mac_cores.

Theorem C194_mac_many_refuted : forall n, (31 < n)%nat -> mac_getaffinity n = UB.
Proof. exact mac_many. Qed.
Print Assumptions C194_mac_many_refuted.

(* tests *)
Example ex_linux : match sets linux_set linux_zero [0; 70; 2000; 3] with
  | Ok m => let r := linux_affinity (fun i => i <? 71) m (fun _ => true) in (fst r, map (snd r) [0; 1; 3; 70; 71]) | _ => (9, []) end
  = (0, [true; false; true; true; false]).
Proof. vm_compute. reflexivity. Qed.
Example ex_linux_none : match sets linux_set linux_zero [200] with
  | Ok m => fst (linux_affinity (fun i => i <? 8) m (fun _ => true)) | _ => 9 end = 22.
Proof. vm_compute. reflexivity. Qed.
Example ex_win : match sets (win_set 64) 0 [0; 2] with Ok v => win_affinity 15 v 15 | _ => (9, 9) end = (0, 5).
Proof. reflexivity. Qed.
Example ex_mac : match sets mac_set 0 [5; 2; 9] with Ok c => mac_affinity c | _ => UB end = Ok (0, 2).
Proof. reflexivity. Qed.
