(* Secure connections: the theorems. *)
From Verif Require Import Base DllModel EpollModel TlsModel TlsProofs.
Local Open Scope Z_scope.

(* ---- C105: setting up ---- *)
Theorem C105_accept_partial : forall s srv sc f input code ws n rep rest,
  srv <> O -> tctx s srv = Some sc -> In sc (tlive s) -> (0 < f)%nat -> waits ws ->
  exists s', tls_accept s srv (Z.of_nat f) input true code (ws ++ (ADone n, rep) :: rest) = Ok (s', Z.of_nat f) /\
    topen s' = f :: topen s /\ tlive s' = tnext s :: tlive s /\ tctx s' = upd (tctx s) f (Some (tnext s)) /\
    tin s' (tnext s) = input /\ tout s' (tnext s) = [] /\ tlog s' = tlog s ++ wanted f ws.
Proof. exact accept_done. Qed.
Theorem C105_accept_fails_partial : forall s srv sc f input code ws a rep rest,
  srv <> O -> tctx s srv = Some sc -> In sc (tlive s) -> (0 < f)%nat -> ~ In f (topen s) ->
  ~ In (tnext s) (tlive s) -> waits ws -> fails s f ws a rep ->
  exists s', tls_accept s srv (Z.of_nat f) input true code (ws ++ (a, rep) :: rest) = Ok (s', if code_after a =? 0 then 0 else -1) /\
    topen s' = topen s /\ tlive s' = tlive s /\ (forall g, g <> f -> tctx s' g = tctx s g) /\ tctx s' f = None /\
    tlog s' = tlog s ++ wanted f ws ++ last_wait f a ++ [TFreed (tnext s); TClosed f].
Proof. exact accept_fails. Qed.
Theorem C105_accept_no_session_partial : forall s srv sc f input code l,
  srv <> O -> tctx s srv = Some sc -> In sc (tlive s) -> (0 < f)%nat -> ~ In f (topen s) ->
  exists s', tls_accept s srv (Z.of_nat f) input false code l = Ok (s', if code =? 0 then 0 else -1) /\
    topen s' = topen s /\ tlive s' = tlive s /\ (forall g, g <> f -> tctx s' g = tctx s g) /\ tctx s' f = None /\ tlog s' = tlog s ++ [TClosed f].
Proof. exact accept_refused. Qed.
Theorem C105_dial_partial : forall s r ev0 input code ws n rep rest, 0 < r -> waits ws ->
  exists s', tls_dial s true r ev0 true true input true 0 true code (ws ++ (ADone n, rep) :: rest) = Ok (s', r) /\
    topen s' = Z.to_nat r :: topen s /\ tlive s' = tnext s :: tlive s /\ tctx s' = upd (tctx s) (Z.to_nat r) (Some (tnext s)) /\
    tin s' (tnext s) = input /\ tout s' (tnext s) = [] /\ tlog s' = tlog s ++ wanted (Z.to_nat r) ws.
Proof. exact dial_done. Qed.
Theorem C105_dial_refused_partial : forall s r ev0 input code ws a rep rest,
  0 < r -> waits ws -> ~ In (Z.to_nat r) (topen s) -> ~ In (tnext s) (tlive s) ->
  fails (set_tev s (Z.to_nat r) ev0) (Z.to_nat r) ws a rep -> code_after a = 0 ->
  exists s', tls_dial s true r ev0 true true input true 0 true code (ws ++ (a, rep) :: rest) = Ok (s', -22) /\
    topen s' = topen s /\ tlive s' = tlive s /\ tctx s' (Z.to_nat r) = None /\ (forall g, g <> Z.to_nat r -> tctx s' g = tctx s g) /\
    tlog s' = tlog s ++ wanted (Z.to_nat r) ws ++ last_wait (Z.to_nat r) a ++ [TFreed (tnext s); TClosed (Z.to_nat r)].
Proof. exact dial_refused. Qed.
Theorem C105_bind_partial : forall s r, 0 < r ->
  exists s', tls_bind s true r true true true true = Ok (s', r) /\ topen s' = Z.to_nat r :: topen s /\
    tlive s' = tnext s :: tlive s /\ tctx s' = upd (tctx s) (Z.to_nat r) (Some (tnext s)).
Proof. exact bind_done. Qed.
(* a failed accept(2) is looked up in the table all the same *)
Theorem C105_accept_error_refuted : forall s srv input ok code l, srv <> O -> tls_accept s srv (-1) input ok code l = UB.
Proof. exact accept_error. Qed.
(* a handshake that fails with an error: the message is taken from a context already freed *)
Theorem C105_dial_error_refuted : forall s r ev0 input code ws a rep rest, 0 < r -> waits ws ->
  fails (set_tev s (Z.to_nat r) ev0) (Z.to_nat r) ws a rep -> code_after a <> 0 ->
  tls_dial s true r ev0 true true input true 0 true code (ws ++ (a, rep) :: rest) = UB.
Proof. exact dial_error. Qed.
Theorem C105_dial_no_context_refuted : forall s r ev0 input conf ok code l, 0 < r ->
  tls_dial s true r ev0 true true input false conf ok code l = UB.
Proof. exact dial_no_context. Qed.
(* a context that cannot be configured: the message is taken from the context already freed *)
Theorem C105_dial_not_configured_refuted : forall s r ev0 input conf ok code l, 0 < r -> conf < 0 -> conf <> -111 ->
  tls_dial s true r ev0 true true input true conf ok code l = UB.
Proof. exact dial_not_configured. Qed.
(* a handshake whose data came together with the peer's closing is refused, though the next call would end it *)
Theorem C105_hangup_refuted : forall s srv sc f input n rep rest,
  srv <> O -> tctx s srv = Some sc -> In sc (tlive s) -> (0 < f)%nat -> ~ In f (topen s) -> ~ In (tnext s) (tlive s) ->
  exists s', tls_accept s srv (Z.of_nat f) input true 0 ((AWant false 0, 5) :: (ADone n, rep) :: rest) = Ok (s', 0) /\ topen s' = topen s.
Proof. exact accept_hangup. Qed.
(* readiness left over from an earlier wait hides a failure *)
Theorem C105_stale_refuted : forall s srv sc f input k eof rep n rep2 rest,
  srv <> O -> tctx s srv = Some sc -> In sc (tlive s) -> (0 < f)%nat -> ready (tev s f) ->
  exists s', tls_accept s srv (Z.of_nat f) input true 0 ((AFail k eof, rep) :: (ADone n, rep2) :: rest) = Ok (s', Z.of_nat f) /\ In f (topen s').
Proof. exact accept_stale. Qed.
(* a listener without TLS: a plain connection is returned as if it were secure *)
Theorem C105_plain_listener_refuted : forall s srv f input ok code l, srv <> O -> tctx s srv = None -> (0 < f)%nat ->
  exists s', tls_accept s srv (Z.of_nat f) input ok code l = Ok (s', Z.of_nat f) /\ topen s' = f :: topen s /\ tctx s' = tctx s.
Proof. exact accept_plain. Qed.

(* ---- C106: reading and writing ---- *)
Theorem C106_reads_partial : forall f c l s s' rs, tctx s f = Some c -> reads f l s = Ok (s', rs) -> concat (map snd rs) ++ tin s' c = tin s c.
Proof. exact reads_stream. Qed.
Theorem C106_read_partial : forall s f c max plain ws n rep rest, tctx s f = Some c -> In c (tlive s) -> waits ws ->
  exists s', tls_reader s f max plain (ws ++ (ADone n, rep) :: rest) =
    Ok (s', (Z.of_nat (length (firstn (Nat.min n max) (tin s c))), firstn (Nat.min n max) (tin s c))) /\
    tin s' c = skipn (Nat.min n max) (tin s c) /\ (forall d, d <> c -> tin s' d = tin s d) /\ tlog s' = tlog s ++ wanted f ws.
Proof. exact read_done. Qed.
Theorem C106_read_end_partial : forall s f c max plain ws code rep rest, tctx s f = Some c -> In c (tlive s) -> waits ws ->
  exists s', tls_reader s f max plain (ws ++ (AFail code true, rep) :: rest) = Ok (s', (0, [])) /\ tin s' = tin s /\ tlog s' = tlog s ++ wanted f ws.
Proof. exact read_eof. Qed.
Theorem C106_read_fails_partial : forall s f c max plain ws a rep rest,
  tctx s f = Some c -> In c (tlive s) -> waits ws -> fails s f ws a rep -> (forall k, a <> AFail k true) ->
  exists s', tls_reader s f max plain (ws ++ (a, rep) :: rest) = Ok (s', (verdict a, [])) /\ tin s' = tin s /\ tlog s' = tlog s ++ wanted f ws ++ last_wait f a.
Proof. exact read_fails. Qed.
Theorem C106_writes_partial : forall f c l s s' zs, tctx s f = Some c -> writes f l s = Ok (s', zs) -> tout s' c = tout s c ++ accepted l zs.
Proof. exact writes_stream. Qed.
Theorem C106_send_all_partial : forall f c l data s s' rest, tctx s f = Some c -> send_all f data l s = Ok (s', rest) ->
  exists sent, data = sent ++ rest /\ tout s' c = tout s c ++ sent.
Proof. exact send_all_stream. Qed.
Theorem C106_write_partial : forall s f c data len plain ws n rep rest,
  tctx s f = Some c -> In c (tlive s) -> waits ws -> (0 < len <= length data)%nat ->
  exists s', tls_writer s f data len plain (ws ++ (ADone n, rep) :: rest) = Ok (s', Z.of_nat (Nat.min n len)) /\
    tout s' c = tout s c ++ firstn (Nat.min n len) data /\ (forall d, d <> c -> tout s' d = tout s d) /\ tlog s' = tlog s ++ wanted f ws.
Proof. exact write_done. Qed.
Theorem C106_write_fails_partial : forall s f c data len plain ws a rep rest,
  tctx s f = Some c -> In c (tlive s) -> waits ws -> (0 < len <= length data)%nat -> fails s f ws a rep ->
  exists s', tls_writer s f data len plain (ws ++ (a, rep) :: rest) = Ok (s', verdict a) /\ tout s' = tout s /\ tlog s' = tlog s ++ wanted f ws ++ last_wait f a.
Proof. exact write_fails. Qed.
Theorem C106_write_text_partial : forall s f t rest plain l, ~ In 0 t -> t <> [] ->
  tls_writer s f (t ++ 0 :: rest) 0 plain l = tls_writer s f (t ++ 0 :: rest) (length t) plain l.
Proof. exact write_text. Qed.
(* the peer sent its last bytes and closed: the bytes are not given *)
Theorem C106_hangup_refuted : forall s f c max k rest, tctx s f = Some c -> In c (tlive s) -> k = 0 -> tin s c <> [] ->
  exists s', tls_reader s f max (0, []) ((AWant false k, 5) :: rest) = Ok (s', (-111, [])) /\ tin s' c <> [].
Proof. exact read_hangup. Qed.

(* ---- C107: contexts and descriptors over histories ---- *)
Theorem C107_owned_partial : forall l, fine_run tw0 l -> trun tw0 l = Fuel \/ exists s zs, trun tw0 l = Ok (s, zs) /\ owned s.
Proof. exact (fun l => run_owned l tw0 owned0). Qed.
Theorem C107_step_partial : forall s o, owned s -> fine s o -> tstep s o = Fuel \/ exists s' z, tstep s o = Ok (s', z) /\ owned s'.
Proof. exact step_owned. Qed.
Theorem C107_accept_partial : forall s srv r input ok code l, owned s -> fine s (TAccept srv r input ok code l) ->
  tls_accept s srv r input ok code l = Fuel \/ exists s' z, tls_accept s srv r input ok code l = Ok (s', z) /\ owned s' /\
   ((z = r /\ topen s' = Z.to_nat r :: topen s /\ (socket_is_secure s' r = socket_is_secure s (Z.of_nat srv))) \/
    (z <= 0 /\ (forall f, In f (topen s') <-> In f (topen s)))).
Proof. exact step_accept. Qed.
Theorem C107_dial_partial : forall s host r ev0 cfg ca input cl conf ok code l, owned s -> fine s (TDial host r ev0 cfg ca input cl conf ok code l) ->
  tls_dial s host r ev0 cfg ca input cl conf ok code l = Fuel \/ exists s' z, tls_dial s host r ev0 cfg ca input cl conf ok code l = Ok (s', z) /\ owned s' /\
   ((z = r /\ topen s' = Z.to_nat r :: topen s /\ socket_is_secure s' r = true) \/ z = -22).
Proof. exact step_dial. Qed.
Theorem C107_bind_partial : forall s host r cfg keys srv conf, owned s -> fine s (TBind host r cfg keys srv conf) ->
  exists s' z, tls_bind s host r cfg keys srv conf = Ok (s', z) /\ owned s' /\ ((z = r /\ socket_is_secure s' r = true) \/ z = -22).
Proof. exact step_bind. Qed.
Theorem C107_secure_partial : forall s f, owned s -> (0 < f)%nat ->
  (socket_is_secure s (Z.of_nat f) = true <-> exists c, In c (tlive s) /\ tctx s f = Some c).
Proof. exact secure_iff. Qed.
Theorem C107_close_all_partial : forall s, owned s -> exists s' zs, trun s (map TCloser (topen s)) = Ok (s', zs) /\ topen s' = [] /\ tlive s' = [].
Proof. exact close_all. Qed.
Theorem C107_closer_partial : forall s f, owned s -> f <> O ->
  exists s', tls_closer s f = Ok s' /\ owned s' /\ topen s' = remove Nat.eq_dec f (topen s) /\ tctx s' f = None /\ (forall g, g <> f -> tctx s' g = tctx s g).
Proof. exact closer_any. Qed.
Theorem C107_plain_close_refuted : forall s f c max n rep, owned s -> tctx s f = Some c -> tin s c <> [] -> (0 < n)%nat -> (0 < max)%nat ->
  exists s', trun s [TClose f; TOpen f] = Ok (s', [0; Z.of_nat f]) /\ socket_is_secure s' (Z.of_nat f) = true /\ In c (tlive s') /\
    exists s'', tls_reader s' f max (0, []) [(ADone n, rep)] =
       Ok (s'', (Z.of_nat (length (firstn (Nat.min n max) (tin s c))), firstn (Nat.min n max) (tin s c))) /\ firstn (Nat.min n max) (tin s c) <> [].
Proof. exact plain_close. Qed.
Theorem C107_double_close_refuted : forall s srv sc f c input rep, owned s -> tctx s srv = Some sc -> tctx s f = Some c -> f <> srv ->
  exists s1 s2 s3, tls_closer s f = Ok s1 /\ tls_accept s1 srv (Z.of_nat f) input true 0 [(ADone 0, rep)] = Ok (s2, Z.of_nat f) /\ In f (topen s2) /\
    tls_closer s2 f = Ok s3 /\ ~ In f (topen s3).
Proof. exact double_close. Qed.
Theorem C107_bind_twice_refuted : forall s f c, owned s -> tctx s f = Some c ->
  exists s', tls_socket_bind s f true true true = Ok (s', Z.of_nat f) /\ In c (tlive s') /\ forall g, tctx s' g <> Some c.
Proof. exact bind_twice. Qed.
Theorem C107_dial_leak_refuted : forall s r ev0 cfg ca input cl conf ok code l, 0 < r -> cfg && ca = false ->
  exists s', tls_dial s true r ev0 cfg ca input cl conf ok code l = Ok (s', -22) /\ topen s' = Z.to_nat r :: topen s.
Proof. exact dial_leak. Qed.
Theorem C107_bind_leak_refuted : forall s r cfg keys srv conf, 0 < r -> cfg && keys && srv && conf = false ->
  exists s', tls_bind s true r cfg keys srv conf = Ok (s', -22) /\ topen s' = Z.to_nat r :: topen s.
Proof. exact bind_leak. Qed.

(* ---- examples ---- *)
Definition ex_ws : calls := [(AWant false 0, 1); (AWant true 0, 2)].
Definition ex_prog : list top :=
  [TBind true 3 true true true true; TAccept 3 5 [104; 105; 33] true 0 (ex_ws ++ [(ADone 0, 0)]);
   TRead 5 2 (0, []) [(AWant false 0, 1); (ADone 9, 0)]; TWrite 5 [111; 107; 0] 0 0 [(AWant true 0, 2); (ADone 9, 0)];
   TAccept 3 6 [] true 0 [(AWant false 7, 1); (AFail 7 false, 0)]; TDial true 7 2 true true [] true 0 true 0 [(ADone 0, 0)]; TCloser 5; TOpen 5].
Example ex_run : exists s, trun tw0 ex_prog = Ok (s, [3; 5; 2; 2; -1; 7; 0; 5]) /\ topen s = [5; 7; 3]%nat /\ tlive s = [3; 0]%nat /\
  tin s 1%nat = [33] /\ tout s 1%nat = [111; 107] /\ socket_is_secure s 7 = true /\ socket_is_secure s 5 = false.
Proof. eexists. split; [vm_compute; reflexivity|]. repeat split. Qed.
Example ex_waits : waits ex_ws.
Proof. constructor; [split; [exists false, 0; reflexivity|left; reflexivity]|]. constructor; [split; [exists true, 0; reflexivity|right; reflexivity]|]. constructor. Qed.
Example ex_fine : fine_run tw0 ex_prog.
Proof.
  unfold ex_prog, ex_ws. cbn [app].
  split; [cbn; right; intros []|intros ? ? E; vm_compute in E; injection E as <- _].
  split; [cbn; intuition lia|intros ? ? E; vm_compute in E; injection E as <- _].
  split; [cbn; intuition lia|intros ? ? E; vm_compute in E; injection E as <- _].
  split; [cbn; intuition lia|intros ? ? E; vm_compute in E; injection E as <- _].
  split; [cbn; intuition lia|intros ? ? E; vm_compute in E; injection E as <- _].
  split; [cbn; right; right; split; [intuition lia|right; repeat split; repeat constructor]|intros ? ? E; vm_compute in E; injection E as <- _].
  split; [cbn; intuition lia|intros ? ? E; vm_compute in E; injection E as <- _].
  split; [cbn; intuition lia|intros; exact I].
Qed.

Print Assumptions C105_accept_partial.
Print Assumptions C105_accept_fails_partial.
Print Assumptions C105_accept_no_session_partial.
Print Assumptions C105_dial_partial.
Print Assumptions C105_dial_refused_partial.
Print Assumptions C105_bind_partial.
Print Assumptions C105_accept_error_refuted.
Print Assumptions C105_dial_error_refuted.
Print Assumptions C105_dial_no_context_refuted.
Print Assumptions C105_hangup_refuted.
Print Assumptions C105_stale_refuted.
Print Assumptions C105_plain_listener_refuted.
Print Assumptions C106_reads_partial.
Print Assumptions C106_read_partial.
Print Assumptions C106_read_end_partial.
Print Assumptions C106_read_fails_partial.
Print Assumptions C106_writes_partial.
Print Assumptions C106_send_all_partial.
Print Assumptions C106_write_partial.
Print Assumptions C106_write_fails_partial.
Print Assumptions C106_write_text_partial.
Print Assumptions C106_hangup_refuted.
Print Assumptions C107_owned_partial.
Print Assumptions C107_step_partial.
Print Assumptions C107_accept_partial.
Print Assumptions C107_dial_partial.
Print Assumptions C107_bind_partial.
Print Assumptions C107_secure_partial.
Print Assumptions C107_close_all_partial.
Print Assumptions C107_closer_partial.
Print Assumptions C107_plain_close_refuted.
Print Assumptions C107_double_close_refuted.
Print Assumptions C107_bind_twice_refuted.
Print Assumptions C107_dial_leak_refuted.
Print Assumptions C107_bind_leak_refuted.
Print Assumptions C105_dial_not_configured_refuted.
