(* C147-C149: the context switch in machine code (asm.c). *)
From Coq Require Import ZArith List Bool Lia.
From Verif Require Import Base AxModel AxProofs AxProofs2 AxProofs3 AxProofs4.
Import ListNotations.
Open Scope Z_scope.

Theorem C147_sysv_tasks_resume_where_they_left : forall aw fin l cur m,
  starts (sysv aw fin) cur m ->
  legal (sysv aw fin) (fun _ => None) cur m l -> plays (sysv aw fin) (fun _ => None) cur m l.
Proof. exact sysv_plays. Qed.
Print Assumptions C147_sysv_tasks_resume_where_they_left.

Theorem C147_i386_tasks_resume_where_they_left : forall aw fin l cur m,
  starts (i386 aw fin) cur m ->
  legal (i386 aw fin) (fun _ => None) cur m l -> plays (i386 aw fin) (fun _ => None) cur m l.
Proof. exact i386_plays. Qed.
Print Assumptions C147_i386_tasks_resume_where_they_left.

Theorem C147_win64_tasks_resume_where_they_left : forall aw fin l cur m,
  starts (win64 aw fin) cur m ->
  legal (win64 aw fin) (fun _ => None) cur m l -> plays (win64 aw fin) (fun _ => None) cur m l.
Proof. exact win64_plays. Qed.
Print Assumptions C147_win64_tasks_resume_where_they_left.

Theorem C147_aarch64_tasks_resume_where_they_left : forall fn l cur m,
  starts (aarch64 fn) cur m ->
  legal (aarch64 fn) (fun _ => None) cur m l -> plays (aarch64 fn) (fun _ => None) cur m l.
Proof. exact aarch64_plays. Qed.
Print Assumptions C147_aarch64_tasks_resume_where_they_left.

Theorem C148_sysv_writes_only_the_register_area : forall aw fin m p h,
  calls (sysv aw fin) m p h ->
  exists m' pc, swap_sysv m = Ok (m', pc) /\
    forall a, ~ (p <= a < p + 64) -> mem m' a = mem m a.
Proof. exact area_sysv. Qed.
Print Assumptions C148_sysv_writes_only_the_register_area.

Theorem C148_i386_writes_only_the_register_area : forall aw fin m p h,
  calls (i386 aw fin) m p h ->
  exists m' pc, swap_i386 m = Ok (m', pc) /\
    forall a, ~ (p <= a < p + 24) -> mem m' a = mem m a.
Proof. exact area_i386. Qed.
Print Assumptions C148_i386_writes_only_the_register_area.

Theorem C148_win64_writes_only_the_register_area : forall aw fin m p h,
  calls (win64 aw fin) m p h ->
  exists m' pc, swap_win64 m = Ok (m', pc) /\ tib m' = tib m /\
    forall a, ~ (p <= a < p + 256) -> a <> tib m + 8 -> a <> tib m + 16 -> mem m' a = mem m a.
Proof. exact area_win64. Qed.
Print Assumptions C148_win64_writes_only_the_register_area.

Theorem C148_aarch64_writes_only_the_register_area : forall fn m p h,
  calls (aarch64 fn) m p h ->
  exists m' pc, swap_a64 false m = Ok (m', pc) /\
    forall a, ~ (p <= a < p + 176) -> mem m' a = mem m a.
Proof. exact area_aarch64. Qed.
Print Assumptions C148_aarch64_writes_only_the_register_area.

(* Windows AArch64: the 16 bytes after the 176 of the area are written too;
   they are the fields stack_base and magic_number of the task. *)
Theorem C148_windows_aarch64_overwrites_fields_refuted : forall fn m p h,
  calls (aarch64_win fn) m p h ->
  exists m' pc, swap_a64 true m = Ok (m', pc) /\
    mem m' (p + 176) = mem m (tib m + 8) /\ mem m' (p + 184) = mem m (tib m + 16) /\
    mem m' (tib m + 8) = mem m (h + 176) /\ mem m' (tib m + 16) = mem m (h + 184).
Proof. exact winarm_fields. Qed.
Print Assumptions C148_windows_aarch64_overwrites_fields_refuted.

Theorem C148_windows_aarch64_loses_the_magic_number_refuted : forall fn m p h,
  calls (aarch64_win fn) m p h ->
  mem m (p + 184) = 0x7E3CB1A9 -> mem m (tib m + 16) <> 0x7E3CB1A9 ->
  exists m' pc, swap_a64 true m = Ok (m', pc) /\ mem m' (p + 184) <> 0x7E3CB1A9.
Proof. exact winarm_magic. Qed.
Print Assumptions C148_windows_aarch64_loses_the_magic_number_refuted.

Theorem C148_a_switch_to_oneself_is_a_return : forall aw fin fn,
  self_ok (sysv aw fin) /\ self_ok (i386 aw fin) /\ self_ok (win64 aw fin) /\ self_ok (aarch64 fn).
Proof. exact (fun aw fin fn => conj (sysv_self aw fin) (conj (i386_self aw fin)
  (conj (win64_self aw fin) (aarch64_self fn)))). Qed.
Print Assumptions C148_a_switch_to_oneself_is_a_return.

Theorem C149_sysv_start : forall aw fin m m1 m2 h n p,
  into_new (sysv aw fin) m m1 m2 h n p ->
  exists m', swap_sysv m2 = Ok (m', aw) /\
    (reg m' 4 + 8) mod 16 = 0 /\ mem m' (reg m' 4) = fin /\
    h + n - 56 < reg m' 4 /\ reg m' 4 + 8 <= h + n - 32.
Proof. exact begin_sysv. Qed.
Print Assumptions C149_sysv_start.

Theorem C149_i386_start : forall aw fin m m1 m2 h n p,
  into_new (i386 aw fin) m m1 m2 h n p ->
  exists m', swap_i386 m2 = Ok (m', aw) /\
    (reg m' 4 + 4) mod 16 = 0 /\ mem m' (reg m' 4) = fin /\
    h + n - 56 < reg m' 4 /\ reg m' 4 + 4 <= h + n - 32.
Proof. exact begin_i386. Qed.
Print Assumptions C149_i386_start.

(* With the 32 bytes above the return address that a called function may
   write, and with the limits of the new stack in force. *)
Theorem C149_win64_start : forall aw fin m m1 m2 h n p,
  into_new (win64 aw fin) m m1 m2 h n p ->
  exists m', swap_win64 m2 = Ok (m', aw) /\
    (reg m' 4 + 8) mod 16 = 0 /\ mem m' (reg m' 4) = fin /\
    h + n - 56 < reg m' 4 /\ reg m' 4 + 8 + 32 <= h + n /\
    mem m' (tib m' + 8) = mem m2 (h + 240) /\ mem m' (tib m' + 16) = mem m2 (h + 248) /\
    mem m1 (h + 240) = h + n /\ mem m1 (h + 248) = h.
Proof. exact begin_win64. Qed.
Print Assumptions C149_win64_start.

(* The function that the first one returns to is entered with the stack
   pointer one word higher, where the convention asks for a multiple of 16
   above its return address; on Win64 the 32 bytes it may write end 8 bytes
   after the block. *)
Theorem C149_end_of_a_task_misaligned_refuted : forall aw fin m m1 m2 h n p,
  (into_new (sysv aw fin) m m1 m2 h n p ->
   exists m', swap_sysv m2 = Ok (m', aw) /\ mem m' (reg m' 4) = fin /\ (reg m' 4 + 8 + 8) mod 16 <> 0) /\
  (into_new (i386 aw fin) m m1 m2 h n p ->
   exists m', swap_i386 m2 = Ok (m', aw) /\ mem m' (reg m' 4) = fin /\ (reg m' 4 + 4 + 4) mod 16 <> 0) /\
  (into_new (win64 aw fin) m m1 m2 h n p ->
   exists m', swap_win64 m2 = Ok (m', aw) /\ mem m' (reg m' 4) = fin /\ (reg m' 4 + 8 + 8) mod 16 <> 0 /\
     (n mod 16 = 0 -> (reg m' 4 + 8) + 8 + 32 = h + n + 8)).
Proof. exact end_x86. Qed.
Print Assumptions C149_end_of_a_task_misaligned_refuted.

Theorem C149_aarch64_start : forall fn m h n p m1 m2,
  0 < h -> h mod 16 = 0 -> h + n < space 8 -> 176 + 64 <= n ->
  derive_a64 false fn m h n = Ok m1 ->
  (forall a, h <= a < h + n -> mem m2 a = mem m1 a) ->
  reg m2 0 = h -> reg m2 1 = p -> 0 < p -> p mod 16 = 0 -> p + 176 < space 8 ->
  (p + 176 <= h \/ h + n <= p) ->
  exists m' pc, swap_a64 false m2 = Ok (m', pc) /\ pc = fn /\ reg m' 31 mod 16 = 0 /\
    reg m' 29 = reg m' 31 /\ h + n - 16 < reg m' 31 <= h + n.
Proof. exact fresh_a64. Qed.
Print Assumptions C149_aarch64_start.

(* The conditions of a history can be met, and what such a history gives. *)
Example ex_history : starts (sysv 11 22) 4096 ex_m0 /\
  legal (sysv 11 22) (fun _ => None) 4096 ex_m0 [New 65536 4096; Work ex_m2; Switch 65536].
Proof. exact ex_legal. Qed.

Example ex_first_switch :
  match swap_sysv ex_m2 with
  | Ok (m, pc) => pc = 11 /\ reg m 4 = 69592 /\ mem m 69592 = 22 /\
      (* saved: rsp, rbp, rbx *)
      mem m 4096 = 131072 /\ mem m 4104 = 1005 /\ mem m 4112 = 1003
  | _ => False
  end.
Proof. vm_compute. repeat split; reflexivity. Qed.

(* Win64 needs register areas at multiples of 16. *)
Example ex_win64_unaligned :
  swap_win64 (mkM (fun r => if Nat.eqb r 1 then 65536 else if Nat.eqb r 2 then 4104 else 32768)
                  (fun _ => (0, 0)) (fun _ => 32768) 0) = UB.
Proof. vm_compute. reflexivity. Qed.
