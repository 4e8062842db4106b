(* Operations handed to a worker: what the system is asked, what comes back, the promise used again, errno. *)
From Verif Require Import Base FsModel.
Open Scope Z_scope.

(* ranges of the C types *)
Definition is_int (x : Z) := -2147483648 <= x <= 2147483647.
Definition is_u32 (x : Z) := 0 <= x <= 4294967295.
Definition is_word (x : Z) := 0 <= x <= 18446744073709551615.
Definition is_mode (x : Z) := 0 <= x <= 65535.
Definition is_off (x : Z) := -9223372036854775808 <= x <= 9223372036854775807.
(* arguments of their types; of a mode of mkdir only 16 bits *)
Definition fits (c : op) : Prop :=
  match c with
  | Open p f m => is_word p /\ is_int f /\ is_int m
  | Read fd b n | Write fd b n => is_int fd /\ is_word b /\ is_u32 n
  | Sendfile o i off n => is_int o /\ is_int i /\ is_word off /\ is_word n
  | Close fd => is_int fd
  | Unlink p | Rmdir p | Fclose p | Fgetc p => is_word p
  | Mkdir p m => is_word p /\ is_mode m
  | Stat a b | Rename a b | Copy a b | Fopen a b | Entropy a b => is_word a /\ is_word b
  | Fstat fd b => is_int fd /\ is_word b
  | Access p m => is_word p /\ is_int m
  | Chmod p m => is_word p /\ is_u32 m
  | Fgets b n f => is_word b /\ is_int n /\ is_word f
  | Fread a b c d | Fwrite a b c d | Addrinfo a b c d => is_word a /\ is_word b /\ is_word c /\ is_word d
  | Nameinfo a l h hl s sl fl => is_word a /\ is_u32 l /\ is_word h /\ is_u32 hl /\ is_word s /\ is_u32 sl /\ is_int fl
  end.
(* results of their types; of the counts that are kept in an int, those that fit *)
Definition result_fits (c : op) (r : Z) : Prop :=
  match c with
  | Sendfile _ _ _ _ => is_off r
  | Fopen _ _ | Fgets _ _ _ | Fread _ _ _ _ => is_word r
  | Fwrite _ _ _ _ => 0 <= r <= 2147483647
  | _ => is_int r
  end.
(* nothing that can be taken for an array: a small number, or an address with no array in front of it *)
Definition no_array (hdr : Z -> option Z) (r : Z) : Prop :=
  r <= 0x20000000 \/ 9223372036854775808 <= r <= 18446744073709551615 \/
  exists t, hdr r = Some t /\ ~ 31 <= t <= 34.

Lemma int_back x : is_int x -> integer (casting x) = x.
Proof. unfold is_int, integer, casting, sgn, W64, W32. intros H. cbv zeta. change (4294967296 / 2) with 2147483648. destruct (Z.ltb_spec (x mod 18446744073709551616 mod 4294967296) 2147483648); lia. Qed.
Lemma to_int_id x : is_int x -> to_int x = x.
Proof. unfold is_int, to_int, sgn, W32. intros H. cbv zeta. change (4294967296 / 2) with 2147483648. destruct (Z.ltb_spec (x mod 4294967296) 2147483648); lia. Qed.
Lemma u32_back x : is_u32 x -> u_int (casting x) = x.
Proof. unfold is_u32, u_int, casting, W64, W32. intros H. rewrite (Z.mod_small x) by lia. apply Z.mod_small. lia. Qed.
Lemma u16_back x : is_mode x -> u_short (casting x) = x.
Proof. unfold is_mode, u_short, casting, W64, W16. intros H. rewrite (Z.mod_small x) by lia. apply Z.mod_small. lia. Qed.
Lemma word_id x : is_word x -> whole x = x.
Proof. unfold is_word, whole, W64. intros H. apply Z.mod_small. lia. Qed.
Lemma word_back x : is_word x -> whole (casting x) = x.
Proof. intros H. unfold casting, whole. rewrite Z.mod_mod by (unfold W64; lia). now apply word_id. Qed.
Lemma off_back x : is_off x -> long_long (casting x) = x.
Proof. unfold is_off, long_long, casting, sgn, W64. intros H. cbv zeta. change (18446744073709551616 / 2) with 9223372036854775808. rewrite Z.mod_mod by lia. destruct (Z.ltb_spec (x mod 18446744073709551616) 9223372036854775808); lia. Qed.

Lemma body_args c : fits c -> body c (args c) = Ok c.
Proof.
  destruct c; cbn; intros H; repeat match goal with H : _ /\ _ |- _ => destruct H end;
    repeat (rewrite ?int_back, ?u32_back, ?u16_back, ?word_back, ?word_id by assumption); reflexivity.
Qed.
Lemma sgn64 w : 0 <= w < 18446744073709551616 -> sgn W64 w = if w <? 9223372036854775808 then w else w - 18446744073709551616.
Proof. intros H. unfold sgn, W64. cbv zeta. change (18446744073709551616 / 2) with 9223372036854775808. rewrite Z.mod_small by lia. reflexivity. Qed.
Lemma deliver_ok hdr r w : w = casting r -> (-9223372036854775808 <= r) -> r <= 18446744073709551615 -> (forall t, 0 <= r -> hdr r = Some t -> hdr w = Some t) -> no_array hdr r -> deliver hdr w = Ok w.
Proof.
  intros -> L U HW N. unfold deliver. assert (B : 0 <= casting r < 18446744073709551616) by (unfold casting, W64; apply Z.mod_pos_bound; lia).
  rewrite sgn64 by exact B. unfold no_array in N.
  destruct (Z_le_dec 0 r) as [P|P].
  - assert (casting r = r) as E by (unfold casting, W64; apply Z.mod_small; lia). rewrite E in *.
    destruct (Z.ltb_spec r 9223372036854775808).
    + destruct (Z.leb_spec r 0x20000000); [reflexivity|]. destruct N as [N|[N|(t & N & NT)]]; [lia|lia|]. rewrite N.
      unfold is_array_type. destruct (Z.eqb_spec t 31), (Z.eqb_spec t 32), (Z.eqb_spec t 33), (Z.eqb_spec t 34); cbn; try lia. reflexivity.
    + destruct (Z.leb_spec (r - 18446744073709551616) 0x20000000); [reflexivity|lia].
  - assert (casting r = r + 18446744073709551616) as E.
    { unfold casting, W64. symmetry. apply Z.mod_unique_pos with (q := -1); lia. }
    rewrite E. destruct (Z.ltb_spec (r + 18446744073709551616) 9223372036854775808); [lia|].
    destruct (Z.leb_spec (r + 18446744073709551616 - 18446744073709551616) 0x20000000); [reflexivity|lia].
Qed.

Lemma back_cast c r : result_fits c r -> back c r = casting r.
Proof.
  destruct c; cbn [result_fits back]; intros H; try reflexivity; try (rewrite to_int_id; [reflexivity|assumption || (unfold is_int; lia)]);
    unfold casting; symmetry; apply Z.mod_small; unfold is_word, W64 in *; lia.
Qed.
Lemma member_cast c r : result_fits c r -> member c (casting r) = r.
Proof.
  destruct c; cbn [result_fits member]; intros H;
  (apply int_back; assumption) || (apply off_back; assumption) || (apply word_back; assumption) || (apply word_back; unfold is_word; lia).
Qed.
Lemma result_range c r : result_fits c r -> -9223372036854775808 <= r <= 18446744073709551615.
Proof. destruct c; cbn [result_fits]; unfold is_int, is_word, is_off; lia. Qed.

Lemma call_ok hdr sys c : fits c -> result_fits c (sys c) -> no_array hdr (sys c) -> fs_call hdr sys c = Ok (c, sys c).
Proof.
  intros F R N. unfold fs_call. rewrite body_args by exact F. cbn [bind]. rewrite back_cast by exact R.
  pose proof (result_range _ _ R) as B.
  rewrite (deliver_ok hdr (sys c)); [|reflexivity|lia|lia| |exact N].
  - cbn [bind]. now rewrite member_cast.
  - intros t P Q. replace (casting (sys c)) with (sys c); [exact Q|]. unfold casting, W64. symmetry. apply Z.mod_small. lia.
Qed.

(* a large count is taken for an address *)
Lemma call_large hdr sys fd buf n r : is_int fd -> is_word buf -> is_u32 n -> sys (Read fd buf n) = r -> 0x20000000 < r <= 2147483647 -> hdr r = None ->
  fs_call hdr sys (Read fd buf n) = UB.
Proof.
  intros F B N S R H. unfold fs_call. rewrite body_args by (cbn; auto). cbn [bind back]. rewrite S, to_int_id by (unfold is_int; lia).
  unfold deliver. replace (casting r) with r by (unfold casting, W64; symmetry; apply Z.mod_small; lia).
  rewrite sgn64 by lia. destruct (Z.ltb_spec r 9223372036854775808); [|lia]. destruct (Z.leb_spec r 0x20000000); [lia|]. now rewrite H.
Qed.
Lemma call_large_send hdr sys o i off n r : is_int o -> is_int i -> is_word off -> is_word n -> sys (Sendfile o i off n) = r -> 0x20000000 < r <= 9223372036854775807 -> hdr r = None ->
  fs_call hdr sys (Sendfile o i off n) = UB.
Proof.
  intros F1 F2 F3 F4 S R H. unfold fs_call. rewrite body_args by (cbn; auto). cbn [bind back]. rewrite S.
  unfold deliver. replace (casting r) with r by (unfold casting, W64; symmetry; apply Z.mod_small; lia).
  rewrite sgn64 by lia. destruct (Z.ltb_spec r 9223372036854775808); [|lia]. destruct (Z.leb_spec r 0x20000000); [lia|]. now rewrite H.
Qed.
(* the type in front of a pointer is that of an array by chance *)
Lemma call_chance hdr sys buf n f t : is_word buf -> is_int n -> is_word f -> sys (Fgets buf n f) = buf -> 0x20000000 < buf < 9223372036854775808 -> hdr buf = Some t -> 31 <= t <= 34 ->
  fs_call hdr sys (Fgets buf n f) = UB.
Proof.
  intros F1 F2 F3 S R H T. unfold fs_call. rewrite body_args by (cbn; auto). cbn [bind back]. rewrite S.
  unfold deliver. rewrite sgn64 by lia. destruct (Z.ltb_spec buf 9223372036854775808); [|lia]. destruct (Z.leb_spec buf 0x20000000); [lia|]. rewrite H.
  replace (is_array_type t) with true; [reflexivity|]. unfold is_array_type. destruct (Z.eqb_spec t 31), (Z.eqb_spec t 32), (Z.eqb_spec t 33), (Z.eqb_spec t 34); cbn; auto; lia.
Qed.
(* 2^31 items or more written: another count *)
Lemma call_fwrite hdr sys b s n f r : is_word b -> is_word s -> is_word n -> is_word f -> sys (Fwrite b s n f) = r -> 2147483648 <= r <= 4294967295 ->
  fs_call hdr sys (Fwrite b s n f) = Ok (Fwrite b s n f, 18446744073709551616 - 4294967296 + r).
Proof.
  intros F1 F2 F3 F4 S R. unfold fs_call. rewrite body_args by (cbn; auto). cbn [bind back member]. rewrite S.
  assert (to_int r = r - 4294967296) as ->. { unfold to_int, sgn, W32. cbv zeta. change (4294967296 / 2) with 2147483648. rewrite Z.mod_small by lia. destruct (Z.ltb_spec r 2147483648); lia. }
  assert (casting (r - 4294967296) = r - 4294967296 + 18446744073709551616) as ->. { unfold casting, W64. symmetry. apply Z.mod_unique_pos with (q := -1); lia. }
  unfold deliver. rewrite sgn64 by lia. destruct (Z.ltb_spec (r - 4294967296 + 18446744073709551616) 9223372036854775808); [lia|].
  destruct (Z.leb_spec (r - 4294967296 + 18446744073709551616 - 18446744073709551616) 0x20000000); [|lia]. cbn [bind]. rewrite word_id by (unfold is_word; lia). f_equal. f_equal. lia.
Qed.
(* a mode of mkdir above 16 bits *)
Lemma call_mkdir hdr sys p m : is_word p -> is_u32 m -> is_int (sys (Mkdir p (m mod 65536))) -> sys (Mkdir p (m mod 65536)) <= 0x20000000 ->
  fs_call hdr sys (Mkdir p m) = Ok (Mkdir p (m mod 65536), sys (Mkdir p (m mod 65536))).
Proof.
  intros F M R N. unfold fs_call. cbn [body args rd nth_error bind]. rewrite word_id by exact F. unfold u_short. replace (casting m) with m by (unfold casting, W64; symmetry; apply Z.mod_small; unfold is_u32 in M; lia).
  set (r := sys (Mkdir p (m mod W16))). change (m mod W16) with (m mod 65536) in *. fold r in R, N.
  change (back (Mkdir p m) r) with (casting (to_int r)). rewrite to_int_id by exact R.
  rewrite (deliver_ok hdr r); [|reflexivity|unfold is_int in R; lia|unfold is_int in R; lia| |left; exact N].
  - cbn [bind member]. now rewrite int_back.
  - intros t P Q. replace (casting r) with r; [exact Q|]. unfold casting, W64. symmetry. apply Z.mod_small. lia.
Qed.

(* ---- a promise used again ---- *)
Lemma low_clear x : (x - x mod 4294967296) mod 4294967296 = 0.
Proof. rewrite Zminus_mod, Z.mod_mod, Z.sub_diag by lia. apply Z.mod_0_l. lia. Qed.
Definition above (x : Z) := x - x mod 4294967296.
(* the word seen after each result: the result itself, or for NULL what stayed of the one before *)
Fixpoint seen_words (prev : Z) (ws : list Z) : list Z :=
  match ws with
  | [] => []
  | w :: k => let v := if w =? 0 then above prev else w in v :: seen_words v k
  end.
Lemma works_seen ws : forall p, p_works false p ws = Ok (seen_words (pv p) ws).
Proof.
  induction ws as [|w ws IH]; intros p; cbn [p_works seen_words]; [reflexivity|].
  unfold p_work. cbn [andb bind]. rewrite IH. cbn [bind p_ran p_set pv]. reflexivity.
Qed.
Lemma as_int_seen ws : forall p, 0 <= p -> (forall w, In w ws -> 0 <= w) -> map integer (seen_words p ws) = map integer ws.
Proof.
  induction ws as [|w ws IH]; intros p P A; cbn [seen_words map]; [reflexivity|].
  assert (W0 : 0 <= w) by (apply A; left; reflexivity).
  destruct (Z.eqb_spec w 0) as [->|N].
  - f_equal.
    + unfold integer, sgn, above, W32. rewrite low_clear. reflexivity.
    + apply IH; [unfold above; lia|]. intros x X. apply A. right. exact X.
  - f_equal. apply IH; [exact W0|]. intros x X. apply A. right. exact X.
Qed.
Lemma new_pv w : pv (p_new w) = w.
Proof. unfold p_new. cbn. destruct (Z.eqb_spec w 0); auto. Qed.
Lemma promise_ints w ws : 0 <= w -> (forall x, In x ws -> 0 <= x) -> exists l, p_works false (p_new w) ws = Ok l /\ map integer l = map integer ws.
Proof. intros A B. eexists. split; [apply works_seen|]. rewrite new_pv. now apply as_int_seen. Qed.
(* the same for other members when no result is NULL *)
Lemma seen_same ws : forall p, (forall w, In w ws -> w <> 0) -> seen_words p ws = ws.
Proof. induction ws as [|w ws IH]; intros p A; cbn [seen_words]; [reflexivity|]. destruct (Z.eqb_spec w 0) as [E|_]; [exfalso; apply (A w); [left; reflexivity|exact E]|]. f_equal. apply IH. intros x X. apply A. right. exact X. Qed.
Lemma promise_nonnull w ws : (forall x, In x ws -> x <> 0) -> p_works false (p_new w) ws = Ok ws.
Proof. intros A. rewrite works_seen, seen_same by exact A. reflexivity. Qed.
(* the end of the file is not seen: NULL of fgets after the stream was opened at an address above 4 GiB *)
Lemma promise_end f ws p : 4294967296 <= f -> (forall x, In x ws -> 4294967296 <= x) -> p_new f = p ->
  exists l v, p_works false p (ws ++ [0]) = Ok (l ++ [v]) /\ v <> 0.
Proof.
  intros F A <-. rewrite works_seen, new_pv. revert f F.
  induction ws as [|w ws IH]; intros f F; cbn [app seen_words].
  - exists [], (above f). cbn. split; [reflexivity|]. unfold above. lia.
  - assert (W : 4294967296 <= w) by (apply A; left; reflexivity).
    destruct (Z.eqb_spec w 0); [lia|].
    destruct (IH (fun x X => A x (or_intror X)) w W) as (l & v & E & V). exists (w :: l), v. injection E as E. split; [|exact V]. cbn [app]. now rewrite E.
Qed.
Lemma promise_strict w x ws : p_works true (p_new w) (x :: ws) = UB.
Proof. reflexivity. Qed.
Lemma promise_closed w : p_clean true (p_new w) = UB.
Proof. reflexivity. Qed.

(* ---- errno ---- *)
Lemma esteps_app w e l1 : forall s l2, esteps w e s (l1 ++ l2) = do s1 <- esteps w e s l1; esteps w e s1 l2.
Proof. induction l1 as [|v l1 IH]; intros s l2; cbn [app esteps bind]; [reflexivity|]. destruct (estep w e s v); cbn [bind]; auto. Qed.
(* before the worker ends *)
Definition waits (v : ev) := v <> Fin.
Fixpoint last_set (e0 : Z) (l : list ev) : Z := match l with [] => e0 | SetE x :: k => last_set x k | _ :: k => last_set e0 k end.
Lemma before w e l : forall x, (forall v, In v l -> waits v) -> esteps w e (es0 x) l = Ok (es0 (last_set x l)).
Proof.
  induction l as [|v l IH]; intros x A; cbn [esteps last_set]; [reflexivity|].
  assert (V : waits v) by (apply A; left; reflexivity). assert (A' : forall v0, In v0 l -> waits v0) by (intros v0 Q; apply A; right; exact Q).
  destruct v; cbn; try (now apply IH). now destruct V.
Qed.
Lemma errno_handler_first e l n x : e <> 0 -> (forall v, In v l -> v <> Fin) -> exists s,
  esteps (casting (-1)) e (es0 x) (l ++ [Fin; PollH] ++ repeat PollH n ++ [PollC]) = Ok s /\ seen s = Some e.
Proof.
  intros E A. rewrite esteps_app, before by exact A. cbn [bind app esteps estep es0 pdone hend gone seen errn perr]. rewrite Z.eqb_refl.
  destruct (Z.eqb_spec e 0); [contradiction|]. rewrite esteps_app.
  match goal with |- context [esteps _ _ ?s0 (repeat PollH n)] => assert (R : esteps (casting (-1)) e s0 (repeat PollH n) = Ok s0) end.
  { clear. induction n as [|n IH]; cbn; [reflexivity|exact IH]. }
  rewrite R. cbn. eexists. split; [reflexivity|]. reflexivity.
Qed.
Lemma errno_caller_first e l x : (forall v, In v l -> v <> Fin) -> exists s s',
  esteps (casting (-1)) e (es0 x) (l ++ [Fin; PollC]) = Ok s /\ seen s = Some (last_set x l) /\
  (e <> 0 -> esteps (casting (-1)) e s [PollH] = Ok s' /\ errn s' = e).
Proof.
  intros A. rewrite esteps_app, before by exact A. cbn [bind app esteps estep es0 pdone hend gone seen errn perr].
  eexists. eexists. split; [reflexivity|]. split; [reflexivity|]. intros E. cbn. split; [reflexivity|]. destruct (Z.eqb_spec e 0); [contradiction|]. reflexivity.
Qed.
(* NULL, or another number than -1: errno of the operation never arrives *)
Lemma errno_other w e e' l : w <> casting (-1) -> forall s, esteps w e s l = esteps w e' s l.
Proof.
  intros N. induction l as [|v l IH]; intros s; cbn [esteps]; [reflexivity|].
  assert (estep w e s v = estep w e' s v) as ->. { destruct v; cbn [estep]; try reflexivity. destruct (Z.eqb_spec w (casting (-1))); [contradiction|reflexivity]. }
  destruct (estep w e' s v); cbn [bind]; auto.
Qed.
Lemma errno_freed w e x l : (forall v, In v l -> v <> Fin) -> esteps w e (es0 x) (l ++ [Fin; PollC; EndC; PollH]) = UB.
Proof. intros A. rewrite esteps_app, before by exact A. reflexivity. Qed.
Lemma promise_int_results w rs : 0 <= w -> (forall x, In x rs -> is_int x) -> exists l, p_works false (p_new w) (map (fun r => r mod 18446744073709551616) rs) = Ok l /\ map integer l = rs.
Proof.
  intros A B. destruct (promise_ints w (map (fun r => r mod 18446744073709551616) rs) A) as (l & E & M).
  - intros x X. apply in_map_iff in X. destruct X as (r & <- & _). apply Z.mod_pos_bound. lia.
  - exists l. split; [exact E|]. rewrite M, map_map. rewrite <- (map_id rs) at 2. apply map_ext_in. intros r R. apply int_back. auto.
Qed.
(* an operation that did not fail leaves errno to whatever else runs in the thread *)
Lemma errno_success_gen w e l : w <> casting (-1) -> forall s s', perr s = 0 -> esteps w e s l = Ok s' -> errn s' = last_set (errn s) l.
Proof.
  intros N. induction l as [|v l IH]; intros s s' P E; cbn [esteps last_set] in *; [injection E as <-; reflexivity|].
  destruct (estep w e s v) as [s1| | |] eqn:F; try discriminate E. cbn [bind] in E.
  assert (Q : perr s1 = 0 /\ last_set (errn s1) l = last_set (errn s) (v :: l)).
  { destruct v; cbn [estep last_set] in *.
    - injection F as <-. destruct (pdone s); [split; [exact P|reflexivity]|]. cbn [perr errn]. rewrite (proj2 (Z.eqb_neq w (casting (-1))) N). split; [exact P|reflexivity].
    - destruct (hend s); [injection F as <-; split; [exact P|reflexivity]|]. destruct (gone s); [discriminate F|]. injection F as <-.
      destruct (pdone s); [|split; [exact P|reflexivity]]. cbn. rewrite P. split; reflexivity.
    - injection F as <-. destruct (seen s); [split; [exact P|reflexivity]|]. destruct (pdone s); (split; [exact P|reflexivity]).
    - injection F as <-. cbn. split; [exact P|reflexivity].
    - injection F as <-. destruct (seen s); (split; [exact P|reflexivity]). }
  destruct Q as [P1 L1]. rewrite (IH s1 s' P1 E). exact L1.
Qed.
Lemma errno_success w e l x s : w <> 18446744073709551615 -> esteps w e (es0 x) l = Ok s -> errn s = last_set x l.
Proof. intros N E. exact (errno_success_gen w e l N (es0 x) s eq_refl E). Qed.
