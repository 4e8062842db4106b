(* Claims C126 and C127. *)
From Verif Require Import Base WpModel WpProofs.

Theorem C126_pair w x y : sound w -> pair_of (socketpair w) = Some (x, y) ->
  exists c a peer, x = Some c /\ y = Some a /\ c <> a /\ w_accept w = Good (a, peer, true) /\ w_name2 w = Good (peer, true) /\
    forall s, opens s (acts (socketpair w)) = closes s (acts (socketpair w)) + (if (s =? c)%Z || (s =? a)%Z then 1 else 0) /\
      closes s (acts (socketpair w)) <= 1.
Proof. exact (pair_good w x y). Qed.
Theorem C126_failure_leaves_nothing w : sound w -> pair_of (socketpair w) = None ->
  errn (socketpair w) <> 0%Z /\ forall s, opens s (acts (socketpair w)) <= closes s (acts (socketpair w)).
Proof. exact (pair_bad w). Qed.
Theorem C126_listener_closed_twice_refuted w l c a p q : w_listener w = Good l -> w_bind w = Good tt -> w_listen w = Good tt -> w_connector w = Good c ->
  w_name1 w = Good true -> w_connect w = Good tt -> w_accept w = Good (a, p, true) -> w_name2 w = Good (q, true) -> p <> q ->
  acts (socketpair w) = [Opened l; Opened c; Opened a; Closed l; Closed l; Closed c; Closed a] /\ pair_of (socketpair w) = None /\
  errn (socketpair w) = ECONNABORTED.
Proof. exact (pair_twice w l c a p q). Qed.
Theorem C126_error_hidden_refuted w l c a p e : w_listener w = Good l -> w_bind w = Good tt -> w_listen w = Good tt -> w_connector w = Good c ->
  w_name1 w = Good true -> w_connect w = Bad EAGAIN -> w_accept w = Good (a, p, true) -> w_name2 w = Bad e ->
  pair_of (socketpair w) = None /\ errn (socketpair w) = EAGAIN.
Proof. exact (pair_errno w l c a p e). Qed.
Theorem C126_pipe_outside_array_refuted w : pair_of (socketpair w) <> None -> os_pipe true w = UB.
Proof. exact (pipe_wide w). Qed.
Theorem C126_pipe_narrow w : os_pipe false w = Ok (socketpair w).
Proof. exact (pipe_narrow w). Qed.

Theorem C127_access f shared : let a := access (create_args f shared) in
  Z.testbit a 31 = bit f 1 /\
  Z.testbit a 30 = (bit f 0 || bit f 1 || bit f 20 || bit f 22 || shared || bit f 13) /\
  Z.testbit a 0 = bit f 13 /\ forall i, i <> 31%Z -> i <> 30%Z -> i <> 0%Z -> Z.testbit a i = false.
Proof. exact (access_is f shared). Qed.
Theorem C127_read_write f shared : bit f 1 = true -> let a := access (create_args f shared) in Z.testbit a 31 = true /\ Z.testbit a 30 = true.
Proof. exact (read_write f shared). Qed.
Theorem C127_read_only_refuted f shared : bit f 1 = false -> bit f 0 = false -> bit f 22 = true ->
  let a := access (create_args f shared) in Z.testbit a 31 = false /\ Z.testbit a 30 = true.
Proof. exact (read_only_async f shared). Qed.
Theorem C127_disposition f shared : (bit f 10 = true -> bit f 8 = true) ->
  ((forall there, create_does (dispo (create_args f shared)) there = open_does (bit f 8) (bit f 10) (bit f 9) there) <->
   bit f 9 = false /\ (bit f 8 = true -> bit f 10 = true)).
Proof. exact (dispo_right f shared). Qed.
Theorem C127_create_truncates_refuted f shared : bit f 8 = true -> bit f 10 = false -> bit f 9 = false ->
  create_does (dispo (create_args f shared)) true = Some true.
Proof. exact (creat_truncates f shared). Qed.
Theorem C127_truncate_fails_refuted f shared there : bit f 9 = true -> bit f 10 = false -> create_does (dispo (create_args f shared)) there = None.
Proof. exact (trunc_fails f shared there). Qed.
Theorem C127_exclusive_truncates_refuted f shared : bit f 9 = true -> bit f 10 = true -> create_does (dispo (create_args f shared)) true = Some true.
Proof. exact (excl_trunc_truncates f shared). Qed.
Theorem C127_which_call f ipc : (exists g, os_open_call f ipc = ByCrt g) <-> ipc = false /\ bit f 20 = false /\ bit f 22 = false /\ bit f 13 = false.
Proof. exact (which_call f ipc). Qed.
Theorem C127_crt_flags f g : os_open_call f false = ByCrt g ->
  forall i, (0 <= i)%Z -> Z.testbit g i =
    if (i =? 15)%Z then true else if (i =? 21)%Z then false else if (i =? 7)%Z then bit f 7 || bit f 21 else bit f i.
Proof. exact (crt_flags f g). Qed.

Definition demo : world := {| w_listener := Good 300%Z; w_bind := Good tt; w_listen := Good tt; w_connector := Good 304%Z; w_name1 := Good true;
  w_connect := Bad EAGAIN; w_accept := Good (308%Z, (2, 2130706433, 50001)%Z, true); w_name2 := Good ((2, 2130706433, 50001)%Z, true) |}.
Example C126_ex : sound demo /\ pair_of (socketpair demo) = Some (Some 304%Z, Some 308%Z) /\
  acts (socketpair demo) = [Opened 300; Opened 304; Opened 308; Closed 300]%Z.
Proof.
  split; [|split; reflexivity]. unfold sound, demo; cbn.
  repeat split; intros; try discriminate;
    repeat match goal with H : Good _ = Good _ |- _ => injection H as H; try subst | H : Bad _ = Bad _ |- _ => injection H as H; try subst end; try discriminate; try congruence.
Qed.
(* O_RDONLY|O_NONBLOCK goes the other way; O_RDONLY|O_CLOEXEC *)
Example C127_ex : os_open_call 0x100000 false = ByCreate (create_args 0x100000 false) /\ os_open_call 0x200000 false = ByCrt 0x8080.
Proof. split; reflexivity. Qed.

Print Assumptions C126_pair.
Print Assumptions C126_failure_leaves_nothing.
Print Assumptions C126_listener_closed_twice_refuted.
Print Assumptions C126_error_hidden_refuted.
Print Assumptions C126_pipe_outside_array_refuted.
Print Assumptions C126_pipe_narrow.
Print Assumptions C127_access.
Print Assumptions C127_read_write.
Print Assumptions C127_read_only_refuted.
Print Assumptions C127_disposition.
Print Assumptions C127_create_truncates_refuted.
Print Assumptions C127_truncate_fails_refuted.
Print Assumptions C127_exclusive_truncates_refuted.
Print Assumptions C127_which_call.
Print Assumptions C127_crt_flags.
