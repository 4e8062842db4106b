(* C99-C102: opening sockets, names of local sockets, datagrams, kinds of sockets *)
From Verif Require Import Base StrModel StrProofs SockModel SockProofs.
Local Open Scope Z_scope.

(* C99: a failed call leaves no descriptor and no record; a socket returned is ready *)
Theorem C99_socket_failed_partial : forall unix stream fam fd b l, (unix && stream && b && negb l = false) ->
  snd (async_socket unix stream fam fd b l) = -1 -> nothing_left (fst (async_socket unix stream fam fd b l)).
Proof. exact socket_failed. Qed.

(* the excluded case: a local socket that cannot listen leaves its record *)
Theorem C99_socket_failed_refuted : forall fam fd, 0 <= fd ->
  snd (async_socket true true fam fd true false) = -1 /\ left_recs (fst (async_socket true true fam fd true false)) 0 = 1.
Proof. exact socket_leaks. Qed.

Theorem C99_socket_ready : forall unix stream fam fd b l r, snd (async_socket unix stream fam fd b l) = r -> r <> -1 -> r = fd /\
  ready (fst (async_socket unix stream fam fd b l)) unix fd /\ In (SOpen fam stream fd) (fst (async_socket unix stream fam fd b l)) /\
  In (SBind fd fam true) (fst (async_socket unix stream fam fd b l)) /\
  (stream = true -> In (SListen fd true) (fst (async_socket unix stream fam fd b l))).
Proof. exact socket_done. Qed.

Theorem C99_bind_failed : forall unix stream parsed fd b l,
  snd (async_bind unix stream parsed fd b l) = -1 -> nothing_left (fst (async_bind unix stream parsed fd b l)).
Proof. exact bind_failed. Qed.

Theorem C99_bind_ready_partial : forall unix stream parsed fd b l r, snd (async_bind unix stream parsed fd b l) = r -> r <> -1 -> r = fd /\
  ready (fst (async_bind unix stream parsed fd b l)) unix fd /\
  exists fam, (if unix then Some AF_UNIX else parsed) = Some fam /\ In (SBind fd fam true) (fst (async_bind unix stream parsed fd b l)).
Proof. exact bind_done. Qed.

(* a stream socket that cannot listen is returned all the same *)
Theorem C99_bind_listens_refuted : forall unix parsed fd, 0 <= fd -> (unix = true \/ parsed <> None) ->
  snd (async_bind unix true parsed fd true false) = fd /\ ~ In (SListen fd true) (fst (async_bind unix true parsed fd true false)).
Proof. exact bind_deaf. Qed.

(* an IPv6 address can never be bound *)
Theorem C99_bind_six_refuted : forall stream fd b l, lawful (fst (async_bind false stream (Some AF_INET6) fd b l)) ->
  snd (async_bind false stream (Some AF_INET6) fd b l) = -1.
Proof. exact bind_six. Qed.

Theorem C99_connect_failed : forall unix stream parsed fd c p,
  snd (async_connect unix stream parsed fd c p) = -1 -> nothing_left (fst (async_connect unix stream parsed fd c p)).
Proof. exact connect_failed. Qed.

Theorem C99_connect_ready : forall unix stream parsed fd c p r, snd (async_connect unix stream parsed fd c p) = r -> r <> -1 -> r = fd /\
  ready (fst (async_connect unix stream parsed fd c p)) unix fd /\
  exists fam, (if unix then Some AF_UNIX else parsed) = Some fam /\ In (SOpen fam stream fd) (fst (async_connect unix stream parsed fd c p)) /\
    In (SConnect fd fam true) (fst (async_connect unix stream parsed fd c p)).
Proof. exact connect_done. Qed.

(* C100: a local socket is bound to and reached by its path *)
Theorem C100_names_partial : forall path, nul_free path -> (length path <= 106)%nat -> bound_name path = path /\ connect_name path = path.
Proof. exact names_meet. Qed.

(* from 107 bytes on the name bound is one byte shorter than the one connected to *)
Theorem C100_names_refuted : forall path, nul_free path -> (107 <= length path)%nat -> bound_name path <> connect_name path.
Proof. exact names_differ. Qed.

(* C101: the last packet received on a descriptor gives its datagram, its sender and its flags, answers go to its
   sender, and nothing is used after it is freed, in every use that keeps to the last packets ([srun]) *)
Theorem C101_packets_partial : forall fds l rs, srun (snd (opened fds)) l = Some rs -> exists s', urun (fst (opened fds)) l = Ok (s', rs).
Proof. exact udp_uses. Qed.

(* where async_sendto sends *)
Theorem C101_sendto : (forall s fd a fl s', udp_to s fd a fl = Ok s' -> async_sendto s' fd = Ok (Some a) /\ exists i p, kept s' fd = Ok (i, p) /\ pflags p = fl) /\
  (forall s fd m s' n, udp_recv s fd m = Ok (s', Some n) -> exists d a, m = Some (d, a) /\ async_sendto s' fd = Ok (Some a)) /\
  (forall s fd fl a, async_sendto (udp_open s fd fl a) fd = Ok None).
Proof. exact (conj sendto_to (conj sendto_received sendto_opened)). Qed.

(* an earlier packet takes the sender of the next one *)
Theorem C101_sender_refuted : forall fd fl a0 d1 a1 d2 a2, (0 < length d1 <= 1000)%nat -> (0 < length d2 <= 1000)%nat ->
  exists s, urun (udp_open ust0 fd fl a0) [URecv fd (Some (d1, a1)); URecv fd (Some (d2, a2)); UIp 1; USend 1] =
    Ok (s, [RPkt (Some 1%nat); RPkt (Some 2%nat); RAddr a2; RAddr a2]).
Proof. exact udp_sender_changes. Qed.

(* a server whose handler is over before the next receive uses a freed packet *)
Theorem C101_server_refuted : forall fd fl a0 d a m, (0 < length d <= 1000)%nat ->
  urun (udp_open ust0 fd fl a0) [URecv fd (Some (d, a)); UEnd 1; URecv fd m] = UB.
Proof. exact udp_server_ub. Qed.

(* the message of an earlier packet frees an address that is no block *)
Theorem C101_message_refuted : forall fd fl a0 d1 a1 m, (0 < length d1 <= 1000)%nat ->
  urun (udp_open ust0 fd fl a0) [URecv fd (Some (d1, a1)); URecv fd m; UMessage 1] = UB.
Proof. exact udp_message_ub. Qed.

(* message and address are given to the end of the task at most once *)
Theorem C101_message_once : forall s i s' b, udp_message s i = Ok (s', b) -> ~ gives s' i.
Proof. exact message_once. Qed.

(* an empty datagram gives no packet, yet answers go to its sender from then on *)
Theorem C101_empty_refuted : forall s fd a i p, kept s fd = Ok (i, p) -> exists s', udp_recv s fd (Some ([], a)) = Ok (s', None) /\ async_sendto s' fd = Ok (Some a).
Proof. exact udp_empty. Qed.

Theorem C101_long_refuted : forall s fd a i p d, kept s fd = Ok (i, p) -> KB48 < Z.of_nat (length d) ->
  exists s' n q, udp_recv s fd (Some (d, a)) = Ok (s', Some n) /\ nth_error (pkts s') n = Some q /\ Z.of_nat (length (pmsg q)) = KB48.
Proof. exact udp_cut. Qed.

(* C102: whether a descriptor is a local socket *)
Theorem C102_kind_partial : forall l fd, kfine l -> socket_is_uds (krun (rev l)) fd = Ok ((0 <? fd) && kind_of l fd).
Proof. exact kind_told. Qed.

Theorem C102_stale_refuted : forall fd lfd, 0 < fd ->
  socket_is_uds (krun [KOpen fd true; KAccept fd lfd]) fd = Ok true /\ kind_of [KAccept fd lfd; KOpen fd true] fd = false.
Proof. exact kind_stale. Qed.

Theorem C102_freed_refuted : forall fd, 0 < fd -> socket_is_uds (krun [KOpen fd true; KTaskEnd 0]) fd = UB.
Proof. exact kind_ub. Qed.

Print Assumptions C99_socket_ready.
Print Assumptions C99_bind_failed.
Print Assumptions C99_connect_ready.
Print Assumptions C100_names_partial.
Print Assumptions C101_packets_partial.
Print Assumptions C102_kind_partial.

(* ---- the premises can be met ---- *)
Example C99_ex : snd (async_socket true true AF_UNIX 5 true true) = 5 /\ snd (async_bind false true (Some AF_INET) 5 true true) = 5 /\
  snd (async_connect false true (Some AF_INET6) 5 true true) = 5 /\ snd (async_connect true true None 5 true false) = -1.
Proof. vm_compute. auto. Qed.
Example C100_ex : bound_name [47; 97] = [47; 97].
Proof. vm_compute. reflexivity. Qed.
Example C101_ex : srun (snd (opened [(4, 0, 9)]))
    [URecv 4 (Some ([1; 2], 77)); UIp 1; UMessage 1; USend 1; URecv 4 None; URecv 4 (Some ([3], 88)); UEnd 1; UMessage 2; UIp 2; UIp 2] =
  Some [RPkt (Some 1%nat); RAddr 77; RMsg [1; 2]; RAddr 77; RPkt None; RPkt (Some 2%nat); RNone; RMsg [3]; RAddr 88; RAddr 88].
Proof. vm_compute. reflexivity. Qed.
Example C102_ex : kfine [KUdsAccept 7 3; KAccept 6 5; KOpen 5 false; KOpen 3 true] /\
  socket_is_uds (krun (rev [KUdsAccept 7 3; KAccept 6 5; KOpen 5 false; KOpen 3 true])) 7 = Ok true.
Proof. vm_compute. auto. Qed.
