(* Pairs of sockets: what is open afterwards, and who is connected to whom.  Flags of open. *)
From Verif Require Import Base WpModel.

(* ---- specification: pairs ---- *)
Definition opens (s : Z) (l : list act) : nat := length (filter (fun a => match a with Opened n => (n =? s)%Z | Closed _ => false end) l).
Definition closes (s : Z) (l : list act) : nat := length (filter (fun a => match a with Closed n => (n =? s)%Z | Opened _ => false end) l).
(* an open socket's number is not given again; bind fails without a socket; a connected socket has a port *)
Definition sound (w : world) : Prop :=
  (forall e, w_listener w = Bad e -> exists e', w_bind w = Bad e') /\
  (forall l c, w_listener w = Good l -> w_connector w = Good c -> l <> c) /\
  (forall l a p z, w_listener w = Good l -> w_accept w = Good (a, p, z) -> l <> a) /\
  (forall c a p z, w_connector w = Good c -> w_accept w = Good (a, p, z) -> c <> a) /\
  (forall f a p z, w_name2 w = Good ((f, a, p), z) -> p <> 0%Z) /\
  (forall e, w_bind w = Bad e -> e <> 0%Z) /\ (forall e, w_listen w = Bad e -> e <> 0%Z) /\
  (forall e, w_connector w = Bad e -> e <> 0%Z) /\ (forall e, w_name1 w = Bad e -> e <> 0%Z) /\
  (forall e, w_connect w = Bad e -> e <> 0%Z) /\ (forall e, w_name2 w = Bad e -> e <> 0%Z).

Lemma opens_app s a b : opens s (a ++ b) = opens s a + opens s b.
Proof. unfold opens. now rewrite filter_app, app_length. Qed.
Lemma closes_app s a b : closes s (a ++ b) = closes s a + closes s b.
Proof. unfold closes. now rewrite filter_app, app_length. Qed.

Lemma addr_eqb_eq x y : addr_eqb x y = true -> x = y.
Proof. destruct x as [[f a] p], y as [[g b] q]. unfold addr_eqb. intros H. repeat f_equal; lia. Qed.

Ltac counts := cbn [closing opened num app]; rewrite ?opens_app, ?closes_app; unfold opens, closes; cbn [filter length app].

(* the pair: two different sockets, the peer of the second is the first, and nothing else stays open *)
Lemma pair_good w x y : sound w -> pair_of (socketpair w) = Some (x, y) ->
  exists c a peer, x = Some c /\ y = Some a /\ c <> a /\ w_accept w = Good (a, peer, true) /\ w_name2 w = Good (peer, true) /\
    forall s, opens s (acts (socketpair w)) = closes s (acts (socketpair w)) + (if (s =? c)%Z || (s =? a)%Z then 1 else 0) /\
      closes s (acts (socketpair w)) <= 1.
Proof.
  intros (SL & LC & LA & CA & PZ & _). unfold socketpair.
  destruct (w_bind w) as [[]|e] eqn:B; [|discriminate].
  destruct (w_listen w) as [[]|e] eqn:L; [|discriminate].
  destruct (w_connector w) as [c|e] eqn:C; [|discriminate].
  destruct (w_name1 w) as [[]|e] eqn:N1; try discriminate.
  destruct (negb (match w_connect w with Good _ => 0%Z | Bad e => e end =? 0)%Z && negb (match w_connect w with Good _ => 0%Z | Bad e => e end =? EAGAIN)%Z); [discriminate|].
  destruct (w_accept w) as [[[a p] z]|e] eqn:A.
  - destruct z; cbn [negb]; [|discriminate].
    destruct (w_name2 w) as [[ca z]|e] eqn:N2; [|discriminate].
    destruct z; cbn [negb orb]; [|discriminate].
    destruct (addr_eqb p ca) eqn:E; cbn [negb]; [|discriminate].
    apply addr_eqb_eq in E. subst ca. cbn [pair_of acts]. intros H; injection H as <- <-.
    destruct (w_listener w) as [l|e] eqn:W; [|destruct (SL e eq_refl); discriminate].
    specialize (LC l c eq_refl eq_refl). specialize (LA l a p true eq_refl eq_refl). specialize (CA c a p true eq_refl eq_refl).
    exists c, a, p. repeat split; auto; intros; counts;
      destruct (Z.eqb_spec l s), (Z.eqb_spec c s), (Z.eqb_spec a s), (Z.eqb_spec s c), (Z.eqb_spec s a); cbn; subst; try congruence; lia.
  - cbn [negb]. destruct (w_name2 w) as [[[[f ad] p] z]|e2] eqn:N2; [|discriminate].
    specialize (PZ f ad p z eq_refl).
    destruct (negb z || negb (addr_eqb (AF_INET, LOOPBACK, 0%Z) (f, ad, p))) eqn:E; [discriminate|].
    exfalso. unfold addr_eqb in E. lia.
Qed.

(* a failure leaves nothing open and sets errno *)
Lemma pair_bad w : sound w -> pair_of (socketpair w) = None ->
  errn (socketpair w) <> 0%Z /\ forall s, opens s (acts (socketpair w)) <= closes s (acts (socketpair w)).
Proof.
  intros (SL & LC & LA & CA & PZ & E1 & E2 & E3 & E4 & E5 & E6). unfold socketpair, abort_, fail.
  destruct (w_bind w) as [[]|e] eqn:B.
  2: { intros _. split; [cbn; eauto|]. intros s. cbn [acts]. destruct (w_listener w) as [l|]; counts; [destruct (l =? s)%Z; cbn; lia|lia]. }
  destruct (w_listener w) as [l|e] eqn:W; [|destruct (SL e eq_refl); discriminate].
  destruct (w_listen w) as [[]|e] eqn:L.
  2: { intros _. split; [cbn; eauto|]. intros s. cbn [acts]. counts; destruct (l =? s)%Z; cbn; lia. }
  destruct (w_connector w) as [c|e] eqn:C.
  2: { intros _. split; [cbn; eauto|]. intros s. cbn [acts]. counts; destruct (l =? s)%Z; cbn; lia. }
  destruct (w_name1 w) as [[]|e] eqn:N1.
  2: { intros _. split; [cbn; discriminate|]. intros s. cbn [acts]. counts; destruct (l =? s)%Z, (c =? s)%Z; cbn; lia. }
  2: { intros _. split; [cbn; eauto|]. intros s. cbn [acts]. counts; destruct (l =? s)%Z, (c =? s)%Z; cbn; lia. }
  set (e1 := match w_connect w with Good _ => 0%Z | Bad e => e end).
  destruct (negb (e1 =? 0)%Z && negb (e1 =? EAGAIN)%Z) eqn:CE.
  { intros _. split; [cbn [errn]; destruct (e1 =? 0)%Z eqn:?; lia|]. intros s. cbn [acts]. counts; destruct (l =? s)%Z, (c =? s)%Z; cbn; lia. }
  destruct (w_accept w) as [[[a p] z]|e] eqn:A.
  - destruct z; cbn [negb].
    + destruct (w_name2 w) as [[ca z]|e] eqn:N2.
      * destruct (negb z || negb (addr_eqb p ca)); [|discriminate].
        intros _. split; [cbn; discriminate|]. intros s. cbn [acts]. counts; destruct (l =? s)%Z, (c =? s)%Z, (a =? s)%Z; cbn; lia.
      * intros _. split; [cbn [errn]; destruct (e1 =? 0)%Z eqn:?; [eauto|lia]|].
        intros s. cbn [acts]. counts; destruct (l =? s)%Z, (c =? s)%Z, (a =? s)%Z; cbn; lia.
    + intros _. split; [cbn; discriminate|]. intros s. cbn [acts]. counts; destruct (l =? s)%Z, (c =? s)%Z, (a =? s)%Z; cbn; lia.
  - cbn [negb]. destruct (w_name2 w) as [[ca z]|e2] eqn:N2.
    + destruct (negb z || negb (addr_eqb (AF_INET, LOOPBACK, 0%Z) ca)); [|discriminate].
      intros _. split; [cbn; discriminate|]. intros s. cbn [acts]. counts; destruct (l =? s)%Z, (c =? s)%Z; cbn; lia.
    + intros _. split; [cbn [errn]; destruct (e1 =? 0)%Z eqn:?; [eauto|lia]|].
      intros s. cbn [acts]. counts; destruct (l =? s)%Z, (c =? s)%Z; cbn; lia.
Qed.

(* the listening socket is closed a second time when a stranger was accepted *)
Lemma pair_twice w l c a p q : w_listener w = Good l -> w_bind w = Good tt -> w_listen w = Good tt -> w_connector w = Good c ->
  w_name1 w = Good true -> w_connect w = Good tt -> w_accept w = Good (a, p, true) -> w_name2 w = Good (q, true) -> p <> q ->
  acts (socketpair w) = [Opened l; Opened c; Opened a; Closed l; Closed l; Closed c; Closed a] /\ pair_of (socketpair w) = None /\
  errn (socketpair w) = ECONNABORTED.
Proof.
  intros W B L C N1 CO A N2 D. unfold socketpair. rewrite W, B, L, C, N1, CO, A, N2.
  destruct (addr_eqb p q) eqn:E; [apply addr_eqb_eq in E; congruence|]. cbn. auto.
Qed.
(* after the usual start of a connection errno hides a later error *)
Lemma pair_errno w l c a p e : w_listener w = Good l -> w_bind w = Good tt -> w_listen w = Good tt -> w_connector w = Good c ->
  w_name1 w = Good true -> w_connect w = Bad EAGAIN -> w_accept w = Good (a, p, true) -> w_name2 w = Bad e ->
  pair_of (socketpair w) = None /\ errn (socketpair w) = EAGAIN.
Proof. intros W B L C N1 CO A N2. unfold socketpair. rewrite W, B, L, C, N1, CO, A, N2. cbn. auto. Qed.

Lemma pipe_wide w : pair_of (socketpair w) <> None -> os_pipe true w = UB.
Proof. unfold os_pipe. destruct (pair_of (socketpair w)); congruence. Qed.
Lemma pipe_narrow w : os_pipe false w = Ok (socketpair w).
Proof. unfold os_pipe. destruct (pair_of (socketpair w)); reflexivity. Qed.

(* ---- specification: flags ---- *)
Definition bit (f : Z) (n : Z) : bool := Z.testbit f n.
(* what a disposition does to a file that exists or not: None an error, Some true an empty file, Some false
   the file as it is *)
Definition create_does (d : Z) (there : bool) : option bool :=
  if (d =? 1)%Z then if there then None else Some true
  else if (d =? 2)%Z then Some true
  else if (d =? 3)%Z then if there then Some false else None
  else if (d =? 4)%Z then if there then Some false else Some true
  else if (d =? 5)%Z then if there then Some true else None
  else None.
(* what open does with O_CREAT, O_EXCL and O_TRUNC *)
Definition open_does (creat excl trunc there : bool) : option bool :=
  if there then if creat && excl then None else Some trunc
  else if creat then Some true else None.

Lemma has_bit f n : (0 <= n)%Z -> has f (2 ^ n) = Z.testbit f n.
Proof.
  intros N. unfold has. destruct (Z.testbit f n) eqn:T.
  - destruct (Z.eqb_spec (Z.land f (2 ^ n)) 0) as [E|E]; auto.
    exfalso. assert (Z.testbit (Z.land f (2 ^ n)) n = true) by (rewrite Z.land_spec, T, Z.pow2_bits_true; auto).
    rewrite E, Z.bits_0 in H. discriminate.
  - replace (Z.land f (2 ^ n)) with 0%Z; auto. symmetry. apply Z.bits_inj_0. intros i.
    rewrite Z.land_spec. destruct (Z.eq_dec i n) as [->|D]; [now rewrite T|].
    rewrite Z.pow2_bits_false by lia. apply andb_false_r.
Qed.
Lemma has_or f a b : has f (Z.lor a b) = has f a || has f b.
Proof.
  unfold has. rewrite Z.land_lor_distr_r.
  destruct (Z.eqb_spec (Z.land f a) 0) as [A|A], (Z.eqb_spec (Z.land f b) 0) as [B|B]; cbn [negb orb].
  - now rewrite A, B.
  - destruct (Z.eqb_spec (Z.lor (Z.land f a) (Z.land f b)) 0) as [E|E]; auto. apply Z.lor_eq_0_iff in E. tauto.
  - destruct (Z.eqb_spec (Z.lor (Z.land f a) (Z.land f b)) 0) as [E|E]; auto. apply Z.lor_eq_0_iff in E. tauto.
  - destruct (Z.eqb_spec (Z.lor (Z.land f a) (Z.land f b)) 0) as [E|E]; auto. apply Z.lor_eq_0_iff in E. tauto.
Qed.
Lemma has_rdonly f : has f O_RDONLY = false.
Proof. unfold has, O_RDONLY. now rewrite Z.land_0_r. Qed.
Lemma has_wronly f : has f O_WRONLY = bit f 0.
Proof. exact (has_bit f 0 ltac:(lia)). Qed.
Lemma has_rdwr f : has f O_RDWR = bit f 1.
Proof. exact (has_bit f 1 ltac:(lia)). Qed.
Lemma has_creat f : has f O_CREAT = bit f 8.
Proof. exact (has_bit f 8 ltac:(lia)). Qed.
Lemma has_trunc f : has f O_TRUNC = bit f 9.
Proof. exact (has_bit f 9 ltac:(lia)). Qed.
Lemma has_excl f : has f O_EXCL = bit f 10.
Proof. exact (has_bit f 10 ltac:(lia)). Qed.
Lemma has_dir f : has f O_DIRECTORY = bit f 13.
Proof. exact (has_bit f 13 ltac:(lia)). Qed.
Lemma has_cloexec f : has f O_CLOEXEC = bit f 21.
Proof. exact (has_bit f 21 ltac:(lia)). Qed.
Lemma has_async f : has f O_ASYNC = bit f 20 || bit f 22.
Proof.
  change O_ASYNC with (Z.lor (2 ^ 20) (2 ^ 22)). rewrite has_or.
  rewrite (has_bit f 20 ltac:(lia)), (has_bit f 22 ltac:(lia)). reflexivity.
Qed.

(* the access that is asked for *)
Lemma access_is f shared : let a := access (create_args f shared) in
  Z.testbit a 31 = bit f 1 /\
  Z.testbit a 30 = (bit f 0 || bit f 1 || bit f 20 || bit f 22 || shared || bit f 13) /\
  Z.testbit a 0 = bit f 13 /\ forall i, i <> 31%Z -> i <> 30%Z -> i <> 0%Z -> Z.testbit a i = false.
Proof.
  cbn zeta. unfold create_args. cbn [access].
  rewrite has_rdonly, has_rdwr, has_wronly, has_dir, has_async.
  change GENERIC_READ with (2 ^ 31)%Z. change GENERIC_WRITE with (2 ^ 30)%Z. change FILE_FLAG_OVERLAPPED with (2 ^ 30)%Z.
  change FILE_LIST_DIRECTORY with (2 ^ 0)%Z.
  destruct (bit f 1), (bit f 0), (bit f 13), (bit f 20), (bit f 22), shared; cbn [orb];
    (split; [reflexivity|split; [reflexivity|split; [reflexivity|]]]); intros i A B C;
    rewrite ?Z.lor_spec, ?Z.bits_0, ?Z.pow2_bits_false by lia; reflexivity.
Qed.

(* opened for reading only, without waiting: not readable, but writable *)
Lemma read_only_async f shared : bit f 1 = false -> bit f 0 = false -> bit f 22 = true ->
  let a := access (create_args f shared) in Z.testbit a 31 = false /\ Z.testbit a 30 = true.
Proof.
  intros A B C. destruct (access_is f shared) as (R & W & _). cbn zeta in *. rewrite R, W, A, B, C.
  rewrite orb_true_r. auto.
Qed.
Lemma read_write f shared : bit f 1 = true -> let a := access (create_args f shared) in Z.testbit a 31 = true /\ Z.testbit a 30 = true.
Proof. intros A. destruct (access_is f shared) as (R & W & _). cbn zeta in *. rewrite R, W, A. rewrite !orb_true_r. auto. Qed.

(* the disposition does what open should exactly without O_TRUNC and, with O_CREAT, only with O_EXCL *)
Lemma dispo_right f shared : (bit f 10 = true -> bit f 8 = true) ->
  ((forall there, create_does (dispo (create_args f shared)) there = open_does (bit f 8) (bit f 10) (bit f 9) there) <->
   bit f 9 = false /\ (bit f 8 = true -> bit f 10 = true)).
Proof.
  intros X. unfold create_args. cbn [dispo]. rewrite has_creat, has_excl, has_trunc.
  destruct (bit f 8), (bit f 10), (bit f 9); try (specialize (X eq_refl); discriminate); split;
    try (intros H; assert (H1 := H true); assert (H2 := H false); vm_compute in H1, H2; split; try reflexivity; try discriminate; intros Q; discriminate Q || reflexivity);
    intros (A & B) there; try discriminate A; try (specialize (B eq_refl); discriminate B); destruct there; reflexivity.
Qed.
Lemma creat_truncates f shared : bit f 8 = true -> bit f 10 = false -> bit f 9 = false ->
  create_does (dispo (create_args f shared)) true = Some true.
Proof. intros A B C. unfold create_args. cbn [dispo]. rewrite has_creat, has_excl, has_trunc, A, B, C. reflexivity. Qed.
Lemma trunc_fails f shared there : bit f 9 = true -> bit f 10 = false -> create_does (dispo (create_args f shared)) there = None.
Proof. intros A B. unfold create_args. cbn [dispo]. rewrite has_creat, has_excl, has_trunc, A, B. destruct (bit f 8); reflexivity. Qed.
Lemma excl_trunc_truncates f shared : bit f 9 = true -> bit f 10 = true -> create_does (dispo (create_args f shared)) true = Some true.
Proof. intros A B. unfold create_args. cbn [dispo]. rewrite has_creat, has_excl, has_trunc, A, B. reflexivity. Qed.

(* which call is made *)
Lemma which_call f ipc : (exists g, os_open_call f ipc = ByCrt g) <-> ipc = false /\ bit f 20 = false /\ bit f 22 = false /\ bit f 13 = false.
Proof.
  unfold os_open_call. rewrite has_async, has_dir.
  destruct ipc, (bit f 20), (bit f 22), (bit f 13); cbn [orb]; (split; [intros (g & H); discriminate H || auto|intros (A & B & C & D)]); try discriminate; eauto.
Qed.
Lemma crt_flags f g : os_open_call f false = ByCrt g ->
  forall i, (0 <= i)%Z -> Z.testbit g i =
    if (i =? 15)%Z then true else if (i =? 21)%Z then false else if (i =? 7)%Z then bit f 7 || bit f 21 else bit f i.
Proof.
  unfold os_open_call. rewrite has_async, has_dir. cbn [orb].
  destruct (bit f 20 || bit f 22) eqn:AS; [discriminate|]. cbn [orb].
  destruct (bit f 13) eqn:DI; [discriminate|]. intros H; injection H as <-. intros i I.
  apply orb_false_iff in AS. destruct AS as (A20 & A22).
  rewrite has_cloexec. unfold bit. rewrite Z.lor_spec.
  change O_BINARY with (2 ^ 15)%Z. change O_NONBLOCK with (2 ^ 20)%Z. change O_CLOEXEC with (2 ^ 21)%Z. change O_NOINHERIT with (2 ^ 7)%Z.
  rewrite Z.pow2_bits_false with (m := 21%Z) by lia. rewrite orb_false_r.
  assert (P : forall n, (0 <= n)%Z -> Z.testbit (2 ^ n) i = (i =? n)%Z).
  { intros n N. destruct (Z.eqb_spec i n) as [->|D]; [now apply Z.pow2_bits_true|apply Z.pow2_bits_false; lia]. }
  destruct (Z.testbit f 21) eqn:CL; rewrite ?Z.ldiff_spec, ?Z.lor_spec, ?Z.ldiff_spec, ?Z.lor_spec, !P by lia.
  - destruct (Z.eqb_spec i 15) as [->|]; [now rewrite orb_true_r|].
    destruct (Z.eqb_spec i 21) as [->|]; [now rewrite andb_false_r|].
    destruct (Z.eqb_spec i 7) as [->|]; [now rewrite !orb_true_r|].
    destruct (Z.eqb_spec i 20) as [->|]; cbn [negb]; rewrite ?orb_false_r, ?andb_true_r, ?andb_false_r; auto.
  - destruct (Z.eqb_spec i 15) as [->|]; [now rewrite orb_true_r|].
    destruct (Z.eqb_spec i 20) as [->|]; cbn [negb]; rewrite ?orb_false_r, ?andb_true_r, ?andb_false_r; auto.
    destruct (Z.eqb_spec i 21) as [->|]; auto; destruct (Z.eqb_spec i 7) as [->|]; auto.
Qed.
