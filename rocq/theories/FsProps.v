From Verif Require Import Base FsModel FsProofs.
Open Scope Z_scope.

(* ---- C132: every operation reaches the system with the arguments given, and its result comes back ---- *)
Theorem C132_as_asked_partial : forall hdr sys c, fits c -> result_fits c (sys c) -> no_array hdr (sys c) -> fs_call hdr sys c = Ok (c, sys c).
Proof. exact call_ok. Qed.
(* half a gigabyte read at once: the count is taken for an address *)
Theorem C132_large_read_refuted : forall hdr sys fd buf n r, is_int fd -> is_word buf -> is_u32 n -> sys (Read fd buf n) = r -> 0x20000000 < r <= 2147483647 -> hdr r = None ->
  fs_call hdr sys (Read fd buf n) = UB.
Proof. exact call_large. Qed.
Theorem C132_large_send_refuted : forall hdr sys o i off n r, is_int o -> is_int i -> is_word off -> is_word n -> sys (Sendfile o i off n) = r -> 0x20000000 < r <= 9223372036854775807 -> hdr r = None ->
  fs_call hdr sys (Sendfile o i off n) = UB.
Proof. exact call_large_send. Qed.
(* bytes in front of a buffer that look like the head of an array *)
Theorem C132_bytes_before_refuted : forall hdr sys buf n f t, is_word buf -> is_int n -> is_word f -> sys (Fgets buf n f) = buf -> 0x20000000 < buf < 9223372036854775808 -> hdr buf = Some t -> 31 <= t <= 34 ->
  fs_call hdr sys (Fgets buf n f) = UB.
Proof. exact call_chance. Qed.
Theorem C132_many_items_refuted : forall hdr sys b s n f r, is_word b -> is_word s -> is_word n -> is_word f -> sys (Fwrite b s n f) = r -> 2147483648 <= r <= 4294967295 ->
  fs_call hdr sys (Fwrite b s n f) = Ok (Fwrite b s n f, 18446744073709551616 - 4294967296 + r).
Proof. exact call_fwrite. Qed.
Theorem C132_mkdir_mode_refuted : forall hdr sys p m, is_word p -> is_u32 m -> is_int (sys (Mkdir p (m mod 65536))) -> sys (Mkdir p (m mod 65536)) <= 0x20000000 ->
  fs_call hdr sys (Mkdir p m) = Ok (Mkdir p (m mod 65536), sys (Mkdir p (m mod 65536))).
Proof. exact call_mkdir. Qed.
Example C132_ex : fs_call (fun _ => None) (fun c => match c with Read 3 4096 100 => 42 | _ => -1 end) (Read 3 4096 100) = Ok (Read 3 4096 100, 42) /\
  fs_call (fun _ => None) (fun _ => -1) (Open 4096 577 384) = Ok (Open 4096 577 384, -1) /\ fits (Open 4096 577 384) /\ no_array (fun _ => None) (-1).
Proof. split; [reflexivity|]. split; [reflexivity|]. unfold no_array. cbn. unfold is_word, is_int. lia. Qed.

(* ---- C133: one promise for several operations ---- *)
(* read as numbers the results are right, if freed memory stays as it was *)
Theorem C133_numbers_partial : forall w rs, 0 <= w -> (forall x, In x rs -> is_int x) ->
  exists l, p_works false (p_new w) (map (fun r => r mod 18446744073709551616) rs) = Ok l /\ map integer l = rs.
Proof. exact promise_int_results. Qed.
Theorem C133_pointers_partial : forall w ws, (forall x, In x ws -> x <> 0) -> p_works false (p_new w) ws = Ok ws.
Proof. exact promise_nonnull. Qed.
(* the end of a file is never seen as NULL: [f] the stream opened, [ws] the lines read before *)
Theorem C133_end_of_file_refuted : forall f ws p, 4294967296 <= f -> (forall x, In x ws -> 4294967296 <= x) -> p_new f = p ->
  exists l v, p_works false p (ws ++ [0]) = Ok (l ++ [v]) /\ v <> 0.
Proof. exact promise_end. Qed.
(* every second operation and the closing read the arguments of the one before, already freed *)
Theorem C133_freed_arguments_refuted : forall w x ws, p_works true (p_new w) (x :: ws) = UB.
Proof. exact promise_strict. Qed.
Theorem C133_closing_refuted : forall w, p_clean true (p_new w) = UB.
Proof. exact promise_closed. Qed.
Example C133_ex : p_works false (p_new 94000000000000) [94000000001000; 94000000001000; 0] = Ok [94000000001000; 94000000001000; 93999654240256].
Proof. reflexivity. Qed.

(* ---- C134: errno after a failed operation ---- *)
Theorem C134_handler_first_partial : forall e l n x, e <> 0 -> (forall v, In v l -> v <> Fin) -> exists s,
  esteps 18446744073709551615 e (es0 x) (l ++ [Fin; PollH] ++ repeat PollH n ++ [PollC]) = Ok s /\ seen s = Some e.
Proof. exact errno_handler_first. Qed.
(* the caller looks first: errno is what it was before, and changes later under its feet *)
Theorem C134_caller_first_refuted : forall e l x, (forall v, In v l -> v <> Fin) -> exists s s',
  esteps 18446744073709551615 e (es0 x) (l ++ [Fin; PollC]) = Ok s /\ seen s = Some (last_set x l) /\
  (e <> 0 -> esteps 18446744073709551615 e s [PollH] = Ok s' /\ errn s' = e).
Proof. exact errno_caller_first. Qed.
(* a failure told otherwise than by -1 (fopen, fgets, getaddrinfo) never brings its errno *)
Theorem C134_other_failures_refuted : forall w e e' l, w <> 18446744073709551615 -> forall s, esteps w e s l = esteps w e' s l.
Proof. exact errno_other. Qed.
(* the caller's task ends before the handler looks: freed memory *)
Theorem C134_ended_refuted : forall w e x l, (forall v, In v l -> v <> Fin) -> esteps w e (es0 x) (l ++ [Fin; PollC; EndC; PollH]) = UB.
Proof. exact errno_freed. Qed.
(* and an operation that did not fail changes nothing: errno is what was last set in this thread *)
Theorem C134_success_keeps : forall w e l x s, w <> 18446744073709551615 -> esteps w e (es0 x) l = Ok s -> errn s = last_set x l.
Proof. exact errno_success. Qed.
Example C134_ex : exists s, esteps 18446744073709551615 2 (es0 11) [PollH; PollC; PollH; Fin; PollC] = Ok s /\ seen s = Some 11.
Proof. eexists. split; reflexivity. Qed.

Print Assumptions C132_as_asked_partial.
Print Assumptions C132_large_read_refuted.
Print Assumptions C132_large_send_refuted.
Print Assumptions C132_bytes_before_refuted.
Print Assumptions C132_many_items_refuted.
Print Assumptions C132_mkdir_mode_refuted.
Print Assumptions C133_numbers_partial.
Print Assumptions C133_pointers_partial.
Print Assumptions C133_end_of_file_refuted.
Print Assumptions C133_freed_arguments_refuted.
Print Assumptions C133_closing_refuted.
Print Assumptions C134_handler_first_partial.
Print Assumptions C134_caller_first_refuted.
Print Assumptions C134_other_failures_refuted.
Print Assumptions C134_ended_refuted.
Print Assumptions C134_success_keeps.
