(* Secure connections: specification and lemmas. *)
From Verif Require Import Base DllModel EpollModel TlsModel.
Local Open Scope Z_scope.

(* ---- Specification ---- *)
(* reported ready in one direction and nothing else *)
Definition ready (rep : Z) : Prop := rep = 1 \/ rep = 2.
(* answers that ask to wait, each followed by a report of readiness *)
Definition waits (ws : calls) : Prop := Forall (fun x => (exists w c, fst x = AWant w c) /\ ready (snd x)) ws.
(* what is waited for, in order *)
Fixpoint wanted (f : nat) (ws : calls) : list tact :=
  match ws with [] => [] | (AWant w _, _) :: r => TWaited f w :: wanted f r | _ :: r => wanted f r end.
(* the answer that ends a call in failure: a failure (after a wait, or with no readiness left over in the entry), or a wait
   that ends with anything but plain readiness *)
Definition fails (s : tw) (f : nat) (ws : calls) (a : answer) (rep : Z) : Prop :=
  match a with ADone _ => False | AWant _ _ => ~ ready rep | AFail _ _ => ws <> [] \/ ~ ready (tev s f) end.
(* refused when the library has no error, a protocol error otherwise *)
Definition verdict (a : answer) : Z := if code_after a =? 0 then -111 else -71.
(* what the last answer adds to the waits *)
Definition last_wait (f : nat) (a : answer) : list tact := match a with AWant w _ => [TWaited f w] | _ => [] end.

(* every secure connection has one live context of its own, and there are no others *)
Definition owned (s : tw) : Prop :=
  (forall c, In c (tlive s) <-> exists f, In f (topen s) /\ tctx s f = Some c) /\
  (forall f g c, tctx s f = Some c -> tctx s g = Some c -> f = g) /\
  (forall f, ~ In f (topen s) -> tctx s f = None) /\ ~ In O (topen s) /\ NoDup (topen s) /\ NoDup (tlive s) /\
  (forall c, In c (tlive s) -> (c < tnext s)%nat).

(* a program that uses descriptors it has, and buffers as long as it says *)
Definition fine (s : tw) (o : top) : Prop :=
  match o with
  | TAccept srv r _ _ _ _ => In srv (topen s) /\ 0 < r /\ ~ In (Z.to_nat r) (topen s)
  | TDial host r _ cfg ca _ cl conf _ code l => host = false \/ r <= 0 \/ (~ In (Z.to_nat r) (topen s) /\
      (cfg && ca = false \/ (cl = true /\ conf = 0 /\ code = 0 /\ Forall (fun x => code_after (fst x) = 0) l)))
  | TBind _ r _ _ _ _ => r <= 0 \/ ~ In (Z.to_nat r) (topen s)
  | TCloser f => In f (topen s)
  | TRead f _ _ _ => In f (topen s)
  | TWrite f buf len _ _ => In f (topen s) /\ (len <= length buf)%nat /\ (len = O -> In 0 buf)
  | TOpen f => (0 < f)%nat /\ ~ In f (topen s)
  | TClose f => In f (topen s) /\ tctx s f = None
  end.
Fixpoint fine_run (s : tw) (l : list top) : Prop :=
  match l with [] => True | o :: r => fine s o /\ forall s' z, tstep s o = Ok (s', z) -> fine_run s' r end.

(* several reads of one descriptor: the bytes each gave; several writes: how many bytes of each were taken *)
Fixpoint reads (f : nat) (l : list (nat * calls)) (s : tw) : outcome (tw * list (Z * bytes)) :=
  match l with
  | [] => Ok (s, [])
  | (max, cs) :: r => do x <- tls_reader s f max (0, []) cs; do y <- reads f r (fst x); Ok (fst y, snd x :: snd y)
  end.
Fixpoint writes (f : nat) (l : list (bytes * nat * calls)) (s : tw) : outcome (tw * list Z) :=
  match l with
  | [] => Ok (s, [])
  | (buf, len, cs) :: r => do x <- tls_writer s f buf len 0 cs; do y <- writes f r (fst x); Ok (fst y, snd x :: snd y)
  end.
Fixpoint accepted (l : list (bytes * nat * calls)) (zs : list Z) : bytes :=
  match l, zs with (buf, _, _) :: r, z :: zr => firstn (Z.to_nat z) buf ++ accepted r zr | _, _ => [] end.
(* the same when the writer goes on where it stopped *)
Fixpoint send_all (f : nat) (data : bytes) (l : list calls) (s : tw) : outcome (tw * bytes) :=
  match data, l with
  | [], _ => Ok (s, [])
  | _, [] => Ok (s, data)
  | _, cs :: r => do x <- tls_writer s f data (length data) 0 cs;
      if snd x <? 0 then Ok (fst x, data) else send_all f (skipn (Z.to_nat (snd x)) data) r (fst x)
  end.

(* ---- Lemmas ---- *)
Lemma ready_b z : (z =? READ) || (z =? WRITE) = true <-> ready z.
Proof. unfold ready, READ, WRITE. lia. Qed.
Lemma ready_f z : ~ ready z -> (z =? READ) || (z =? WRITE) = false.
Proof. intros H. destruct ((z =? READ) || (z =? WRITE)) eqn:E; [apply ready_b in E; contradiction|reflexivity]. Qed.
Lemma live_b s c : is_live s c = true <-> In c (tlive s).
Proof. unfold is_live. rewrite existsb_exists. split; [intros (x & I & E); apply Nat.eqb_eq in E; now subst|intros I; exists c; split; [exact I|apply Nat.eqb_refl]]. Qed.
Lemma use_ok s c : In c (tlive s) -> use s c = Ok s.
Proof. intros H. unfold use. apply live_b in H. now rewrite H. Qed.
Lemma use_ub s c : ~ In c (tlive s) -> use s c = UB.
Proof. intros H. unfold use. destruct (is_live s c) eqn:E; [apply live_b in E; contradiction|reflexivity]. Qed.
Lemma upd_eq {A} (f : nat -> A) k v : upd f k v k = v.
Proof. unfold upd. now rewrite Nat.eqb_refl. Qed.
Lemma upd_ne {A} (f : nat -> A) k v x : x <> k -> upd f k v x = f x.
Proof. unfold upd. intros H. destruct (Nat.eqb_spec x k); congruence. Qed.

(* same descriptors, contexts and streams; entry f's events and the log may differ *)
Record same (f : nat) (s s' : tw) (log : list tact) : Prop := {
  sm_open : topen s' = topen s; sm_ctx : tctx s' = tctx s; sm_live : tlive s' = tlive s; sm_next : tnext s' = tnext s;
  sm_in : tin s' = tin s; sm_out : tout s' = tout s; sm_log : tlog s' = tlog s ++ log; sm_ev : forall g, g <> f -> tev s' g = tev s g }.
Lemma same_refl f s : same f s s [].
Proof. constructor; auto. now rewrite app_nil_r. Qed.
Lemma same_trans f s1 s2 s3 a b : same f s1 s2 a -> same f s2 s3 b -> same f s1 s3 (a ++ b).
Proof. intros [] []. constructor; try congruence. - rewrite sm_log1, sm_log0. now rewrite app_assoc. - intros g H. rewrite sm_ev1, sm_ev0; auto. Qed.
Lemma same_ev f s v : same f s (set_tev s f v) [].
Proof. constructor; auto; cbn. - now rewrite app_nil_r. - intros g H. now apply upd_ne. Qed.
Lemma poll_same f s a rep : same f s (fst (tls_poll s f a rep)) (last_wait f a).
Proof.
  unfold tls_poll. destruct a; cbn [fst last_wait]; try apply same_refl.
  constructor; auto. cbn. intros g H. now apply upd_ne.
Qed.

(* one round that goes on *)
Lemma want_round s f w c rep : ready rep -> exists s', same f s s' [TWaited f w] /\ tev s' f = 0 /\
  tls_poll s f (AWant w c) rep = (set_tev (add_tlog s (TWaited f w)) f rep, true) /\ s' = set_tev (set_tev (add_tlog s (TWaited f w)) f rep) f 0.
Proof.
  intros R. eexists. split; [|split; [|split; [|reflexivity]]].
  - constructor; auto. cbn. intros g H. now rewrite !upd_ne.
  - cbn. apply upd_eq.
  - unfold tls_poll. f_equal. cbn [tev set_tev]. rewrite upd_eq. now apply ready_b.
Qed.
Lemma handshake_waits f c l : forall ws s, waits ws -> In c (tlive s) ->
  exists s', handshake f c (ws ++ l) s = handshake f c l s' /\ same f s s' (wanted f ws) /\ (ws <> [] -> tev s' f = 0) /\ (ws = [] -> s' = s).
Proof.
  induction ws as [|[a rep] ws IH]; intros s W L.
  - exists s. split; [reflexivity|]. split; [apply same_refl|]. split; [congruence|auto].
  - inversion W as [|? ? [(w & k & E) R] W']; subst. cbn [fst snd] in *. subst a.
    cbn [app handshake]. rewrite use_ok by auto. cbn [bind].
    destruct (want_round s f w k rep R) as (s1 & Sm & E0 & -> & E1). cbv zeta. rewrite <- E1. change (tlserr true (code_after (AWant w k))) with 0. change (0 <? 0) with false. cbv iota.
    destruct (IH s1 W') as (s2 & Eh & Sm2 & E2 & E3); [now rewrite (sm_live _ _ _ _ Sm)|].
    exists s2. split; [exact Eh|]. split; [|split; [|discriminate]].
    + cbn [wanted]. change (TWaited f w :: wanted f ws) with ([TWaited f w] ++ wanted f ws). now apply (same_trans f s s1 s2).
    + intros _. destruct ws as [|x ws]; [rewrite E3; auto|apply E2; discriminate].
Qed.
Lemma verdict_err a : tlserr false (code_after a) = verdict a.
Proof. reflexivity. Qed.
Lemma verdict_neg a : verdict a < 0.
Proof. unfold verdict. destruct (code_after a =? 0); lia. Qed.
(* the round that ends in failure *)
Lemma fail_round s f ws a rep : fails s f ws a rep -> (ws <> [] -> tev s f = 0) -> snd (tls_poll s f a rep) = false.
Proof.
  unfold fails, tls_poll. destruct a as [n|w k|k e]; [contradiction| |]; intros F E; cbn [snd].
  - cbn [tev set_tev]. rewrite upd_eq. now apply ready_f.
  - destruct F as [F|F]; [rewrite E by auto; reflexivity|now apply ready_f].
Qed.
Lemma handshake_done f c ws n rep rest s : waits ws -> In c (tlive s) ->
  exists s', handshake f c (ws ++ (ADone n, rep) :: rest) s = Ok (s', 0) /\ same f s s' (wanted f ws).
Proof.
  intros W L. destruct (handshake_waits f c ((ADone n, rep) :: rest) ws s W L) as (s' & E & Sm & _).
  exists s'. split; [|exact Sm]. rewrite E. cbn [handshake]. rewrite use_ok; [reflexivity|]. now rewrite (sm_live _ _ _ _ Sm).
Qed.
Lemma handshake_fails f c ws a rep rest s : waits ws -> In c (tlive s) -> fails s f ws a rep ->
  exists s', handshake f c (ws ++ (a, rep) :: rest) s = Ok (s', verdict a) /\ same f s s' (wanted f ws ++ last_wait f a) /\ tev s' f = 0.
Proof.
  intros W L F. destruct (handshake_waits f c ((a, rep) :: rest) ws s W L) as (s' & E & Sm & E0 & E1).
  rewrite E. cbn [handshake]. rewrite use_ok by (now rewrite (sm_live _ _ _ _ Sm)). cbn [bind].
  assert (P : snd (tls_poll s' f a rep) = false).
  { apply (fail_round s' f ws a rep); [|exact E0]. destruct a; auto. cbn in *. destruct F as [F|F]; [now left|].
    destruct ws as [|x ws]; [rewrite E1 by auto; now right|left; discriminate]. }
  pose proof (poll_same f s' a rep) as Sp.
  destruct (tls_poll s' f a rep) as [s2 ok]. cbn [fst snd] in *. subst ok. rewrite verdict_err. cbv zeta.
  pose proof (verdict_neg a) as N. destruct (Z.ltb_spec (verdict a) 0); [|lia].
  exists (set_tev s2 f 0). split; [destruct a; [contradiction|reflexivity|reflexivity]|]. split; [|cbn; apply upd_eq].
  rewrite <- (app_nil_r (wanted f ws ++ last_wait f a)). apply (same_trans f s s2); [|apply same_ev].
  now apply (same_trans f s s' s2).
Qed.
(* readiness left over in the entry hides a failure once *)
Lemma handshake_stale f c code eof rep rest s : In c (tlive s) -> ready (tev s f) ->
  handshake f c ((AFail code eof, rep) :: rest) s = handshake f c rest (set_tev s f 0).
Proof.
  intros L R. cbn [handshake]. rewrite use_ok by auto. cbn [bind tls_poll]. apply ready_b in R. rewrite R. reflexivity.
Qed.

(* ---- closing ---- *)
Lemma remove_not_in (x : nat) l : ~ In x l -> remove Nat.eq_dec x l = l.
Proof. apply notin_remove. Qed.
Lemma closer_secure s f c : f <> O -> tctx s f = Some c -> In c (tlive s) ->
  exists s', tls_closer s f = Ok s' /\ topen s' = remove Nat.eq_dec f (topen s) /\ tlive s' = remove Nat.eq_dec c (tlive s) /\
    tctx s' = upd (tctx s) f None /\ tnext s' = tnext s /\ tev s' = tev s /\ tin s' = tin s /\ tout s' = tout s /\ tlog s' = tlog s ++ [TFreed c; TClosed f].
Proof.
  intros F E L. unfold tls_closer. destruct (Nat.eqb_spec f 0); [contradiction|]. rewrite E. rewrite use_ok by auto. cbn [bind].
  unfold tls_free. rewrite use_ok by auto. cbn [bind]. eexists. split; [reflexivity|]. cbn. rewrite <- app_assoc. cbn [app].
  split; [reflexivity|]. split; [reflexivity|]. split; [reflexivity|]. auto 10.
Qed.
Lemma closer_plain s f : f <> O -> tctx s f = None -> tls_closer s f = Ok (sys_close s f).
Proof. intros F E. unfold tls_closer. destruct (Nat.eqb_spec f 0); [contradiction|]. now rewrite E. Qed.

(* ---- accepting ---- *)
Lemma accept_done s srv sc f input code ws n rep rest : srv <> O -> tctx s srv = Some sc -> In sc (tlive s) -> (0 < f)%nat -> waits ws ->
  exists s', tls_accept s srv (Z.of_nat f) input true code (ws ++ (ADone n, rep) :: rest) = Ok (s', Z.of_nat f) /\
    topen s' = f :: topen s /\ tlive s' = tnext s :: tlive s /\ tctx s' = upd (tctx s) f (Some (tnext s)) /\
    tin s' (tnext s) = input /\ tout s' (tnext s) = [] /\ tlog s' = tlog s ++ wanted f ws.
Proof.
  intros S0 E L F W. unfold tls_accept.
  destruct (Z.leb_spec 0 (Z.of_nat f)); [|lia]. destruct (Nat.eqb_spec srv 0); [contradiction|].
  destruct (Z.eqb_spec (Z.of_nat f) 0); [lia|]. destruct (Z.ltb_spec (Z.of_nat f) 0); [lia|]. cbn [orb]. rewrite Nat2Z.id.
  cbn [tctx sys_open set_open]. rewrite E. rewrite use_ok by (cbn; auto). cbn [bind].
  set (s1 := set_ctx (new_ctx (sys_open s f) input) f (Some (tnext (sys_open s f)))).
  destruct (handshake_done f (tnext (sys_open s f)) ws n rep rest s1 W) as (s' & -> & Sm); [left; reflexivity|].
  cbn [bind]. change (0 <? 0) with false. cbn [bind]. change (0 =? 0) with true. cbv iota.
  exists s'. split; [reflexivity|]. destruct Sm. split; [now rewrite sm_open0|]. split; [now rewrite sm_live0|]. split; [now rewrite sm_ctx0|].
  split; [rewrite sm_in0; cbn; apply upd_eq|]. split; [rewrite sm_out0; cbn; apply upd_eq|]. now rewrite sm_log0.
Qed.
Lemma accept_fails s srv sc f input code ws a rep rest : srv <> O -> tctx s srv = Some sc -> In sc (tlive s) -> (0 < f)%nat -> ~ In f (topen s) ->
  ~ In (tnext s) (tlive s) -> waits ws -> fails s f ws a rep ->
  exists s', tls_accept s srv (Z.of_nat f) input true code (ws ++ (a, rep) :: rest) = Ok (s', if code_after a =? 0 then 0 else -1) /\
    topen s' = topen s /\ tlive s' = tlive s /\ (forall g, g <> f -> tctx s' g = tctx s g) /\ tctx s' f = None /\
    tlog s' = tlog s ++ wanted f ws ++ last_wait f a ++ [TFreed (tnext s); TClosed f].
Proof.
  intros S0 E L F NF NL W Fa. unfold tls_accept.
  destruct (Z.leb_spec 0 (Z.of_nat f)); [|lia]. destruct (Nat.eqb_spec srv 0); [contradiction|].
  destruct (Z.eqb_spec (Z.of_nat f) 0); [lia|]. destruct (Z.ltb_spec (Z.of_nat f) 0); [lia|]. cbn [orb]. rewrite Nat2Z.id.
  cbn [tctx sys_open set_open]. rewrite E. rewrite use_ok by (cbn; auto). cbn [bind].
  set (s1 := set_ctx (new_ctx (sys_open s f) input) f (Some (tnext (sys_open s f)))).
  destruct (handshake_fails f (tnext (sys_open s f)) ws a rep rest s1 W) as (s' & -> & Sm & _); [left; reflexivity| |].
  { destruct a; auto. }
  cbn [bind]. pose proof (verdict_neg a) as N. destruct (Z.ltb_spec (verdict a) 0); [|lia].
  destruct Sm. destruct (closer_secure s' f (tnext s)) as (s2 & -> & O2 & L2 & C2 & N2 & _ & _ & _ & G2).
  { lia. } { rewrite sm_ctx0. cbn. apply upd_eq. } { rewrite sm_live0. left. reflexivity. }
  cbn [bind]. exists s2. split.
  - unfold verdict. destruct (code_after a =? 0); reflexivity.
  - split; [rewrite O2, sm_open0; cbn [topen s1 set_ctx new_ctx sys_open set_open remove]; destruct (Nat.eq_dec f f); [now apply remove_not_in|congruence]|].
    split; [rewrite L2, sm_live0; cbn [tlive s1 set_ctx new_ctx sys_open set_open tnext remove]; destruct (Nat.eq_dec (tnext s) (tnext s)); [now apply remove_not_in|congruence]|].
    split; [intros g Hg; rewrite C2, upd_ne, sm_ctx0 by auto; cbn; now apply upd_ne|]. split; [rewrite C2; apply upd_eq|].
    rewrite G2, sm_log0. cbn [tlog s1 set_ctx new_ctx sys_open set_open]. rewrite <- !app_assoc. reflexivity.
Qed.
Lemma accept_refused s srv sc f input code l : srv <> O -> tctx s srv = Some sc -> In sc (tlive s) -> (0 < f)%nat -> ~ In f (topen s) ->
  exists s', tls_accept s srv (Z.of_nat f) input false code l = Ok (s', if code =? 0 then 0 else -1) /\
    topen s' = topen s /\ tlive s' = tlive s /\ (forall g, g <> f -> tctx s' g = tctx s g) /\ tctx s' f = None /\ tlog s' = tlog s ++ [TClosed f].
Proof.
  intros S0 E L F NF. unfold tls_accept.
  destruct (Z.leb_spec 0 (Z.of_nat f)); [|lia]. destruct (Nat.eqb_spec srv 0); [contradiction|].
  destruct (Z.eqb_spec (Z.of_nat f) 0); [lia|]. destruct (Z.ltb_spec (Z.of_nat f) 0); [lia|]. cbn [orb]. rewrite Nat2Z.id.
  cbn [tctx sys_open set_open]. rewrite E. rewrite use_ok by (cbn; auto). cbn [bind].
  assert (Hn : tlserr false code < 0) by (unfold tlserr, ECONNREFUSED, EPROTO; destruct (code =? 0); lia).
  destruct (Z.ltb_spec (tlserr false code) 0); [|lia].
  rewrite closer_plain; [|lia|cbn; apply upd_eq]. cbn [bind]. eexists. split; [unfold tlserr, ECONNREFUSED, EPROTO; destruct (code =? 0); reflexivity|].
  cbn -[remove]. split; [cbn [remove]; destruct (Nat.eq_dec f f); [now apply remove_not_in|congruence]|].
  split; [reflexivity|]. split; [intros g Hg; now apply upd_ne|]. split; [apply upd_eq|reflexivity].
Qed.
(* a listener without TLS: the connection is plain and taken for a success *)
Lemma accept_plain s srv f input ok code l : srv <> O -> tctx s srv = None -> (0 < f)%nat ->
  exists s', tls_accept s srv (Z.of_nat f) input ok code l = Ok (s', Z.of_nat f) /\ topen s' = f :: topen s /\ tctx s' = tctx s.
Proof.
  intros S0 E F. unfold tls_accept.
  destruct (Z.leb_spec 0 (Z.of_nat f)); [|lia]. destruct (Nat.eqb_spec srv 0); [contradiction|].
  destruct (Z.eqb_spec (Z.of_nat f) 0); [lia|]. destruct (Z.ltb_spec (Z.of_nat f) 0); [lia|]. cbn [orb]. rewrite Nat2Z.id.
  cbn [tctx sys_open set_open]. rewrite E. cbn [bind]. change (0 <? 0) with false. cbn [bind]. eexists. split; [reflexivity|]. auto.
Qed.
Lemma accept_error s srv input ok code l : srv <> O -> tls_accept s srv (-1) input ok code l = UB.
Proof. intros H. unfold tls_accept. destruct (Nat.eqb_spec srv 0); [contradiction|]. reflexivity. Qed.

(* ---- dialling ---- *)
Lemma dial_done s r ev0 input code ws n rep rest : 0 < r -> waits ws ->
  exists s', tls_dial s true r ev0 true true input true 0 true code (ws ++ (ADone n, rep) :: rest) = Ok (s', r) /\
    topen s' = Z.to_nat r :: topen s /\ tlive s' = tnext s :: tlive s /\ tctx s' = upd (tctx s) (Z.to_nat r) (Some (tnext s)) /\
    tin s' (tnext s) = input /\ tout s' (tnext s) = [] /\ tlog s' = tlog s ++ wanted (Z.to_nat r) ws.
Proof.
  intros R W. unfold tls_dial. cbn [negb andb]. destruct (Z.leb_spec r 0); [lia|]. unfold async_tls_connect. cbv zeta. change (0 =? 0) with true. cbv iota.
  set (f := Z.to_nat r). set (s0 := set_tev (sys_open s f) f ev0).
  destruct (handshake_done f (tnext s0) ws n rep rest (set_ctx (new_ctx s0 input) f (Some (tnext s0))) W) as (s' & -> & Sm); [left; reflexivity|].
  cbn [bind]. change (0 <? 0) with false. cbn [bind]. change (0 =? 0) with true. cbv iota.
  exists s'. split; [reflexivity|]. destruct Sm. split; [now rewrite sm_open0|]. split; [now rewrite sm_live0|]. split; [now rewrite sm_ctx0|].
  split; [rewrite sm_in0; cbn; apply upd_eq|]. split; [rewrite sm_out0; cbn; apply upd_eq|]. now rewrite sm_log0.
Qed.
Lemma dial_refused s r ev0 input code ws a rep rest : 0 < r -> waits ws -> ~ In (Z.to_nat r) (topen s) -> ~ In (tnext s) (tlive s) ->
  fails (set_tev s (Z.to_nat r) ev0) (Z.to_nat r) ws a rep -> code_after a = 0 ->
  exists s', tls_dial s true r ev0 true true input true 0 true code (ws ++ (a, rep) :: rest) = Ok (s', -22) /\
    topen s' = topen s /\ tlive s' = tlive s /\ tctx s' (Z.to_nat r) = None /\ (forall g, g <> Z.to_nat r -> tctx s' g = tctx s g) /\
    tlog s' = tlog s ++ wanted (Z.to_nat r) ws ++ last_wait (Z.to_nat r) a ++ [TFreed (tnext s); TClosed (Z.to_nat r)].
Proof.
  intros R W NF NL Fa Ca. unfold tls_dial. cbn [negb andb]. destruct (Z.leb_spec r 0); [lia|]. unfold async_tls_connect. cbv zeta. change (0 =? 0) with true. cbv iota.
  set (f := Z.to_nat r) in *. set (s0 := set_tev (sys_open s f) f ev0).
  destruct (handshake_fails f (tnext s0) ws a rep rest (set_ctx (new_ctx s0 input) f (Some (tnext s0))) W) as (s' & -> & Sm & _); [left; reflexivity| |].
  { destruct a; auto. }
  assert (V : verdict a = -111) by (unfold verdict; rewrite Ca; reflexivity). rewrite V.
  cbn [bind]. change (-111 <? 0) with true. change (-111 =? - ECONNREFUSED) with true. cbv iota.
  destruct Sm. assert (Ec : tctx s' f = Some (tnext s)) by (rewrite sm_ctx0; cbn; apply upd_eq). rewrite Ec.
  unfold tls_free. rewrite use_ok by (rewrite sm_live0; left; reflexivity). cbn [bind]. change (-111 =? 0) with false. cbv iota.
  eexists. split; [reflexivity|]. cbn -[remove].
  split; [rewrite sm_open0; cbn [topen set_ctx new_ctx s0 set_tev sys_open set_open remove]; destruct (Nat.eq_dec f f); [now apply remove_not_in|congruence]|].
  split; [rewrite sm_live0; cbn [tlive set_ctx new_ctx s0 set_tev sys_open set_open tnext remove]; destruct (Nat.eq_dec (tnext s) (tnext s)); [now apply remove_not_in|congruence]|].
  split; [apply upd_eq|]. split; [intros g Hg; rewrite upd_ne, sm_ctx0 by auto; cbn; now apply upd_ne|].
  rewrite sm_log0. cbn [tlog set_ctx new_ctx s0 set_tev sys_open set_open]. rewrite <- !app_assoc. reflexivity.
Qed.
(* any other failure of the handshake *)
Lemma dial_error s r ev0 input code ws a rep rest : 0 < r -> waits ws ->
  fails (set_tev s (Z.to_nat r) ev0) (Z.to_nat r) ws a rep -> code_after a <> 0 ->
  tls_dial s true r ev0 true true input true 0 true code (ws ++ (a, rep) :: rest) = UB.
Proof.
  intros R W Fa Ca. unfold tls_dial. cbn [negb andb]. destruct (Z.leb_spec r 0); [lia|]. unfold async_tls_connect. cbv zeta. change (0 =? 0) with true. cbv iota.
  set (f := Z.to_nat r) in *. set (s0 := set_tev (sys_open s f) f ev0).
  destruct (handshake_fails f (tnext s0) ws a rep rest (set_ctx (new_ctx s0 input) f (Some (tnext s0))) W) as (s' & -> & Sm & _); [left; reflexivity| |].
  { destruct a; auto. }
  assert (V : verdict a = -71) by (unfold verdict; destruct (Z.eqb_spec (code_after a) 0); [contradiction|reflexivity]). rewrite V.
  cbn [bind]. change (-71 <? 0) with true. change (-71 =? - ECONNREFUSED) with false. cbv iota.
  destruct Sm. destruct (closer_secure s' f (tnext s)) as (s2 & -> & _ & _ & C2 & _).
  { unfold f. lia. } { rewrite sm_ctx0. cbn. apply upd_eq. } { rewrite sm_live0. left. reflexivity. }
  cbn [bind]. change (-71 =? 0) with false. cbv iota. rewrite C2, upd_eq. reflexivity.
Qed.
Lemma dial_no_context s r ev0 input conf ok code l : 0 < r -> tls_dial s true r ev0 true true input false conf ok code l = UB.
Proof.
  intros R. unfold tls_dial. cbn [negb andb]. destruct (Z.leb_spec r 0); [lia|]. unfold async_tls_connect. cbn [bind].
  change (- ENOMEM <? 0) with true. change (- ENOMEM =? - ECONNREFUSED) with false. cbv iota.
  rewrite closer_plain; [|lia|cbn; apply upd_eq]. cbn [bind]. change (- ENOMEM =? 0) with false. cbv iota. cbn. now rewrite upd_eq.
Qed.
(* a context that cannot be configured *)
Lemma dial_not_configured s r ev0 input conf ok code l : 0 < r -> conf < 0 -> conf <> -111 ->
  tls_dial s true r ev0 true true input true conf ok code l = UB.
Proof.
  intros R C1 C2. unfold tls_dial. cbn [negb andb]. destruct (Z.leb_spec r 0); [lia|]. unfold async_tls_connect. cbv zeta.
  destruct (Z.eqb_spec conf 0); [lia|]. cbn [bind]. destruct (Z.ltb_spec conf 0); [|lia].
  destruct (Z.eqb_spec conf (- ECONNREFUSED)) as [E|_]; [contradiction|]. set (f := Z.to_nat r) in *. set (s0 := set_tev (sys_open s f) f ev0).
  destruct (closer_secure (set_ctx (new_ctx s0 input) f (Some (tnext s0))) f (tnext s0)) as (s2 & -> & _ & _ & C3 & _).
  { unfold f. lia. } { cbn. apply upd_eq. } { cbn. left. reflexivity. }
  cbn [bind]. destruct (Z.eqb_spec conf 0); [lia|]. destruct (Z.eqb_spec conf (- ECONNREFUSED)) as [E|_]; [contradiction|].
  rewrite C3, upd_eq. reflexivity.
Qed.
(* a configuration that cannot be made: the connected descriptor stays open *)
Lemma dial_leak s r ev0 cfg ca input cl conf ok code l : 0 < r -> cfg && ca = false ->
  exists s', tls_dial s true r ev0 cfg ca input cl conf ok code l = Ok (s', -22) /\ topen s' = Z.to_nat r :: topen s.
Proof. intros R E. unfold tls_dial. cbn [negb]. destruct (Z.leb_spec r 0); [lia|]. rewrite E. eexists. split; reflexivity. Qed.

(* ---- listening ---- *)
Lemma bind_done s r : 0 < r -> exists s', tls_bind s true r true true true true = Ok (s', r) /\ topen s' = Z.to_nat r :: topen s /\
  tlive s' = tnext s :: tlive s /\ tctx s' = upd (tctx s) (Z.to_nat r) (Some (tnext s)).
Proof. intros R. unfold tls_bind. cbn [negb]. destruct (Z.leb_spec r 0); [lia|]. cbn. rewrite Z2Nat.id by lia. eexists. split; [reflexivity|]. auto. Qed.
Lemma bind_leak s r cfg keys srv conf : 0 < r -> cfg && keys && srv && conf = false ->
  exists s', tls_bind s true r cfg keys srv conf = Ok (s', -22) /\ topen s' = Z.to_nat r :: topen s.
Proof.
  intros R E. unfold tls_bind. cbn [negb]. destruct (Z.leb_spec r 0); [lia|]. unfold tls_socket_bind.
  destruct cfg; [|eexists; split; reflexivity]. destruct keys; [|eexists; split; reflexivity].
  destruct srv; [|eexists; split; reflexivity]. destruct conf; [discriminate|eexists; split; reflexivity].
Qed.

(* ---- reading and writing ---- *)
Lemma read_waits f c max l : forall ws s, waits ws -> In c (tlive s) ->
  exists s', read_loop f c max (ws ++ l) s = read_loop f c max l s' /\ same f s s' (wanted f ws) /\ (ws <> [] -> tev s' f = 0) /\ (ws = [] -> s' = s).
Proof.
  induction ws as [|[a rep] ws IH]; intros s W L.
  - exists s. split; [reflexivity|]. split; [apply same_refl|]. split; [congruence|auto].
  - inversion W as [|? ? [(w & k & E) R] W']; subst. cbn [fst snd] in *. subst a.
    cbn [app read_loop]. rewrite use_ok by auto. cbn [bind].
    destruct (want_round s f w k rep R) as (s1 & Sm & E0 & -> & E1). cbv zeta. rewrite <- E1. change (tlserr true (code_after (AWant w k))) with 0. change (0 <? 0) with false. cbv iota.
    destruct (IH s1 W') as (s2 & Eh & Sm2 & E2 & E3); [now rewrite (sm_live _ _ _ _ Sm)|].
    exists s2. split; [exact Eh|]. split; [|split; [|discriminate]].
    + cbn [wanted]. change (TWaited f w :: wanted f ws) with ([TWaited f w] ++ wanted f ws). now apply (same_trans f s s1 s2).
    + intros _. destruct ws as [|x ws]; [rewrite E3; auto|apply E2; discriminate].
Qed.
Lemma write_waits f c data l : forall ws s, waits ws -> In c (tlive s) ->
  exists s', write_loop f c data (ws ++ l) s = write_loop f c data l s' /\ same f s s' (wanted f ws) /\ (ws <> [] -> tev s' f = 0) /\ (ws = [] -> s' = s).
Proof.
  induction ws as [|[a rep] ws IH]; intros s W L.
  - exists s. split; [reflexivity|]. split; [apply same_refl|]. split; [congruence|auto].
  - inversion W as [|? ? [(w & k & E) R] W']; subst. cbn [fst snd] in *. subst a.
    cbn [app write_loop]. rewrite use_ok by auto. cbn [bind].
    destruct (want_round s f w k rep R) as (s1 & Sm & E0 & -> & E1). cbv zeta. rewrite <- E1. change (tlserr true (code_after (AWant w k))) with 0. change (0 <? 0) with false. cbv iota.
    destruct (IH s1 W') as (s2 & Eh & Sm2 & E2 & E3); [now rewrite (sm_live _ _ _ _ Sm)|].
    exists s2. split; [exact Eh|]. split; [|split; [|discriminate]].
    + cbn [wanted]. change (TWaited f w :: wanted f ws) with ([TWaited f w] ++ wanted f ws). now apply (same_trans f s s1 s2).
    + intros _. destruct ws as [|x ws]; [rewrite E3; auto|apply E2; discriminate].
Qed.
Lemma read_done s f c max plain ws n rep rest : tctx s f = Some c -> In c (tlive s) -> waits ws ->
  exists s', tls_reader s f max plain (ws ++ (ADone n, rep) :: rest) =
    Ok (s', (Z.of_nat (length (firstn (Nat.min n max) (tin s c))), firstn (Nat.min n max) (tin s c))) /\
    tin s' c = skipn (Nat.min n max) (tin s c) /\ (forall d, d <> c -> tin s' d = tin s d) /\ tlog s' = tlog s ++ wanted f ws.
Proof.
  intros E L W. unfold tls_reader. rewrite E. destruct (read_waits f c max ((ADone n, rep) :: rest) ws s W L) as (s1 & -> & [] & _).
  cbn [read_loop]. rewrite use_ok by (now rewrite sm_live0). cbn [bind]. cbv zeta. rewrite sm_in0.
  eexists. split; [reflexivity|]. cbn. rewrite sm_in0. split; [apply upd_eq|]. split; [intros d H; now apply upd_ne|exact sm_log0].
Qed.
Lemma read_eof s f c max plain ws code rep rest : tctx s f = Some c -> In c (tlive s) -> waits ws ->
  exists s', tls_reader s f max plain (ws ++ (AFail code true, rep) :: rest) = Ok (s', (0, [])) /\ tin s' = tin s /\ tlog s' = tlog s ++ wanted f ws.
Proof.
  intros E L W. unfold tls_reader. rewrite E. destruct (read_waits f c max ((AFail code true, rep) :: rest) ws s W L) as (s1 & -> & [] & _).
  cbn [read_loop]. rewrite use_ok by (now rewrite sm_live0). cbn [bind]. exists s1. auto.
Qed.
Lemma read_fails s f c max plain ws a rep rest : tctx s f = Some c -> In c (tlive s) -> waits ws -> fails s f ws a rep -> (forall k, a <> AFail k true) ->
  exists s', tls_reader s f max plain (ws ++ (a, rep) :: rest) = Ok (s', (verdict a, [])) /\ tin s' = tin s /\ tlog s' = tlog s ++ wanted f ws ++ last_wait f a.
Proof.
  intros E L W F Na. unfold tls_reader. rewrite E. destruct (read_waits f c max ((a, rep) :: rest) ws s W L) as (s' & -> & Sm & E0 & E1).
  cbn [read_loop]. rewrite use_ok by (now rewrite (sm_live _ _ _ _ Sm)). cbn [bind].
  assert (P : snd (tls_poll s' f a rep) = false).
  { apply (fail_round s' f ws a rep); [|exact E0]. destruct a; auto. cbn in *. destruct F as [F|F]; [now left|].
    destruct ws as [|x ws]; [rewrite E1 by auto; now right|left; discriminate]. }
  pose proof (poll_same f s' a rep) as Sp.
  destruct (tls_poll s' f a rep) as [s2 ok]. cbn [fst snd] in *. subst ok. rewrite verdict_err. cbv zeta.
  pose proof (verdict_neg a) as N. destruct (Z.ltb_spec (verdict a) 0); [|lia].
  pose proof (same_trans _ _ _ _ _ _ Sm Sp) as [].
  exists (set_tev s2 f 0). split; [destruct a as [|?|? []]; [contradiction|reflexivity|exfalso; eapply Na; reflexivity|reflexivity]|].
  cbn. auto.
Qed.
Lemma write_done s f c data len plain ws n rep rest : tctx s f = Some c -> In c (tlive s) -> waits ws -> (0 < len <= length data)%nat ->
  exists s', tls_writer s f data len plain (ws ++ (ADone n, rep) :: rest) = Ok (s', Z.of_nat (Nat.min n len)) /\
    tout s' c = tout s c ++ firstn (Nat.min n len) data /\ (forall d, d <> c -> tout s' d = tout s d) /\ tlog s' = tlog s ++ wanted f ws.
Proof.
  intros E L W B. unfold tls_writer. destruct (Nat.eqb_spec len 0); [lia|]. cbn [bind]. rewrite E.
  destruct (Nat.leb_spec len (length data)); [|lia].
  destruct (write_waits f c (firstn len data) ((ADone n, rep) :: rest) ws s W L) as (s1 & -> & [] & _).
  cbn [write_loop]. rewrite use_ok by (now rewrite sm_live0). cbn [bind]. cbv zeta. rewrite firstn_length, (Nat.min_l len) by lia.
  eexists. split; [reflexivity|]. cbn. rewrite sm_out0, firstn_firstn, upd_eq.
  replace (Nat.min (Nat.min n len) len) with (Nat.min n len) by lia. split; [reflexivity|]. split; [intros d Hd; now apply upd_ne|exact sm_log0].
Qed.
Lemma write_fails s f c data len plain ws a rep rest : tctx s f = Some c -> In c (tlive s) -> waits ws -> (0 < len <= length data)%nat -> fails s f ws a rep ->
  exists s', tls_writer s f data len plain (ws ++ (a, rep) :: rest) = Ok (s', verdict a) /\ tout s' = tout s /\ tlog s' = tlog s ++ wanted f ws ++ last_wait f a.
Proof.
  intros E L W B F. unfold tls_writer. destruct (Nat.eqb_spec len 0); [lia|]. cbn [bind]. rewrite E. destruct (Nat.leb_spec len (length data)); [|lia].
  destruct (write_waits f c (firstn len data) ((a, rep) :: rest) ws s W L) as (s' & -> & Sm & E0 & E1).
  cbn [write_loop]. rewrite use_ok by (now rewrite (sm_live _ _ _ _ Sm)). cbn [bind].
  assert (P : snd (tls_poll s' f a rep) = false).
  { apply (fail_round s' f ws a rep); [|exact E0]. destruct a; auto. cbn in *. destruct F as [F|F]; [now left|].
    destruct ws as [|x ws]; [rewrite E1 by auto; now right|left; discriminate]. }
  pose proof (poll_same f s' a rep) as Sp.
  destruct (tls_poll s' f a rep) as [s2 ok]. cbn [fst snd] in *. subst ok. rewrite verdict_err. cbv zeta.
  pose proof (verdict_neg a) as N. destruct (Z.ltb_spec (verdict a) 0); [|lia].
  pose proof (same_trans _ _ _ _ _ _ Sm Sp) as [].
  exists (set_tev s2 f 0). split; [destruct a; [contradiction|reflexivity|reflexivity]|]. cbn. auto.
Qed.

(* length 0 stands for the text up to its NUL *)
Lemma strlen_text t rest : ~ In 0 t -> strlen (t ++ 0 :: rest) = Ok (length t).
Proof.
  induction t as [|x t IH]; intros H; cbn [app strlen length]; [reflexivity|].
  destruct (Z.eqb_spec x 0) as [->|]; [destruct H; now left|]. rewrite IH by (intros I; apply H; now right). reflexivity.
Qed.
Lemma write_text s f t rest plain l : ~ In 0 t -> t <> [] -> tls_writer s f (t ++ 0 :: rest) 0 plain l = tls_writer s f (t ++ 0 :: rest) (length t) plain l.
Proof.
  intros H N. unfold tls_writer. cbn [Nat.eqb]. rewrite strlen_text by auto. destruct t; [congruence|reflexivity].
Qed.

(* whatever the answers *)
Lemma tls_poll_parts s f a rep : exists log, same f s (fst (tls_poll s f a rep)) log.
Proof. eexists. apply poll_same. Qed.
Lemma read_any f c max l : forall s s' z got, read_loop f c max l s = Ok (s', (z, got)) ->
  got ++ tin s' c = tin s c /\ (length got <= max)%nat /\ (0 < z -> z = Z.of_nat (length got)) /\ (z <= 0 -> got = []) /\
  tctx s' = tctx s /\ tlive s' = tlive s /\ tnext s' = tnext s /\ topen s' = topen s /\ (forall d, d <> c -> tin s' d = tin s d) /\ tout s' = tout s.
Proof.
  induction l as [|[a rep] l IH]; intros s s' z got; cbn [read_loop]; [discriminate|].
  unfold use. destruct (is_live s c) eqn:Lv; cbn [bind]; [|discriminate].
  assert (Rec : forall a', a' = a -> (let (s1, ok) := tls_poll s f a' rep in let s2 := set_tev s1 f 0 in let rc := tlserr ok (code_after a') in
      if rc <? 0 then Ok (s2, (rc, [])) else read_loop f c max l s2) = Ok (s', (z, got)) ->
      got ++ tin s' c = tin s c /\ (length got <= max)%nat /\ (0 < z -> z = Z.of_nat (length got)) /\ (z <= 0 -> got = []) /\
      tctx s' = tctx s /\ tlive s' = tlive s /\ tnext s' = tnext s /\ topen s' = topen s /\ (forall d, d <> c -> tin s' d = tin s d) /\ tout s' = tout s).
  { intros a' _. destruct (tls_poll_parts s f a' rep) as (lg & Sm). destruct (tls_poll s f a' rep) as [s1 ok]. cbn [fst] in Sm. destruct Sm. cbv zeta.
    destruct (Z.ltb_spec (tlserr ok (code_after a')) 0).
    - intros E. injection E as <- <- <-. cbn. rewrite sm_in0. repeat split; auto; try lia.
    - intros E. apply IH in E. cbn in E. rewrite sm_in0, sm_ctx0, sm_live0, sm_next0, sm_open0, sm_out0 in E. exact E. }
  destruct a as [n|w k|k [|]]; [|apply (Rec _ eq_refl)| |apply (Rec _ eq_refl)].
  - cbv zeta. intros E. injection E as <- <- <-. cbn. rewrite upd_eq. split; [apply firstn_skipn|].
    rewrite firstn_length. split; [lia|]. split; [lia|]. split; [intros H; destruct (firstn (Nat.min n max) (tin s c)) eqn:Ef; [reflexivity|]; exfalso; apply (f_equal (@length Z)) in Ef; rewrite firstn_length in Ef; cbn in *; lia|].
    do 4 (split; [reflexivity|]). split; [intros d H; now apply upd_ne|reflexivity].
  - intros E. injection E as <- <- <-. cbn. repeat split; auto; lia.
Qed.
Lemma write_any f c data l : forall s s' z, write_loop f c data l s = Ok (s', z) ->
  (tout s' c = tout s c ++ firstn (Z.to_nat z) data) /\ z <= Z.of_nat (length data) /\
  tctx s' = tctx s /\ tlive s' = tlive s /\ tnext s' = tnext s /\ topen s' = topen s /\ (forall d, d <> c -> tout s' d = tout s d) /\ tin s' = tin s.
Proof.
  induction l as [|[a rep] l IH]; intros s s' z; cbn [write_loop]; [discriminate|].
  unfold use. destruct (is_live s c) eqn:Lv; cbn [bind]; [|discriminate].
  assert (Rec : forall a', a' = a -> (let (s1, ok) := tls_poll s f a' rep in let s2 := set_tev s1 f 0 in let rc := tlserr ok (code_after a') in
      if rc <? 0 then Ok (s2, rc) else write_loop f c data l s2) = Ok (s', z) ->
      (tout s' c = tout s c ++ firstn (Z.to_nat z) data) /\ z <= Z.of_nat (length data) /\
      tctx s' = tctx s /\ tlive s' = tlive s /\ tnext s' = tnext s /\ topen s' = topen s /\ (forall d, d <> c -> tout s' d = tout s d) /\ tin s' = tin s).
  { intros a' _. destruct (tls_poll_parts s f a' rep) as (lg & Sm). destruct (tls_poll s f a' rep) as [s1 ok]. cbn [fst] in Sm. destruct Sm. cbv zeta.
    destruct (Z.ltb_spec (tlserr ok (code_after a')) 0).
    - intros E. injection E as <- <-. cbn. rewrite sm_out0. replace (Z.to_nat (tlserr ok (code_after a'))) with O by lia. cbn. rewrite app_nil_r. repeat split; auto; lia.
    - intros E. apply IH in E. cbn in E. rewrite sm_in0, sm_ctx0, sm_live0, sm_next0, sm_open0, sm_out0 in E. exact E. }
  destruct a as [n|w k|k e]; [|apply (Rec _ eq_refl)|apply (Rec _ eq_refl)].
  cbv zeta. intros E. injection E as <- <-. cbn. rewrite upd_eq, Nat2Z.id. split; [reflexivity|]. split; [lia|].
  do 4 (split; [reflexivity|]). split; [intros d H; now apply upd_ne|reflexivity].
Qed.
Lemma reader_any s f c max plain l s' z got : tctx s f = Some c -> tls_reader s f max plain l = Ok (s', (z, got)) ->
  got ++ tin s' c = tin s c /\ (length got <= max)%nat /\ (0 < z -> z = Z.of_nat (length got)) /\ (z <= 0 -> got = []) /\
  tctx s' = tctx s /\ tlive s' = tlive s /\ tnext s' = tnext s /\ topen s' = topen s /\ (forall d, d <> c -> tin s' d = tin s d) /\ tout s' = tout s.
Proof. intros E. unfold tls_reader. rewrite E. apply read_any. Qed.

(* the stream: what the reads give, in order, and what is left, is what the peer sent *)
Lemma reads_stream f c l : forall s s' rs, tctx s f = Some c -> reads f l s = Ok (s', rs) -> concat (map snd rs) ++ tin s' c = tin s c.
Proof.
  induction l as [|[max cs] l IH]; intros s s' rs E; cbn [reads].
  - intros H. injection H as <- <-. reflexivity.
  - destruct (tls_reader s f max (0, []) cs) as [[s1 [z got]]| | |] eqn:R; cbn [bind]; try discriminate. cbn [fst snd].
    destruct (reads f l s1) as [[s2 rs2]| | |] eqn:R2; cbn [bind]; try discriminate. intros H. injection H as <- <-.
    apply (reader_any s f c) in R; [|exact E]. destruct R as (R & _ & _ & _ & Ec & _).
    cbn [map concat snd fst]. rewrite <- app_assoc. rewrite (IH s1 s2 rs2); auto. now rewrite Ec.
Qed.
Lemma writer_any s f c buf len plain l s' z : tctx s f = Some c -> tls_writer s f buf len plain l = Ok (s', z) ->
  tout s' c = tout s c ++ firstn (Z.to_nat z) buf /\ z <= Z.of_nat (length buf) /\ (len <> O -> z <= Z.of_nat len) /\ tctx s' = tctx s /\ tlive s' = tlive s /\
  tnext s' = tnext s /\ topen s' = topen s /\ (forall d, d <> c -> tout s' d = tout s d) /\ tin s' = tin s.
Proof.
  intros E. unfold tls_writer. destruct (if Nat.eqb len 0 then strlen buf else Ok len) as [count| | |] eqn:Ec; cbn [bind]; try discriminate.
  rewrite E. destruct (Nat.leb_spec count (length buf)); [|discriminate]. intros H0. apply write_any in H0.
  rewrite firstn_length in H0. destruct H0 as (E1 & E2 & E3). rewrite firstn_firstn in E1.
  replace (Nat.min (Z.to_nat z) count) with (Z.to_nat z) in E1 by lia. split; [exact E1|]. split; [lia|]. split; [|exact E3].
  intros Hl. destruct (Nat.eqb_spec len 0); [contradiction|]. injection Ec as <-. lia.
Qed.
Lemma writes_stream f c l : forall s s' zs, tctx s f = Some c -> writes f l s = Ok (s', zs) -> tout s' c = tout s c ++ accepted l zs.
Proof.
  induction l as [|[[buf len] cs] l IH]; intros s s' zs E; cbn [writes].
  - intros H. injection H as <- <-. cbn. now rewrite app_nil_r.
  - destruct (tls_writer s f buf len 0 cs) as [[s1 z]| | |] eqn:R; cbn [bind]; try discriminate. cbn [fst snd].
    destruct (writes f l s1) as [[s2 zs2]| | |] eqn:R2; cbn [bind]; try discriminate. intros H. injection H as <- <-.
    apply (writer_any s f c) in R; [|exact E]. destruct R as (R & _ & _ & Ec & _).
    cbn [accepted fst snd]. rewrite (IH s1 s2 zs2); auto; [|now rewrite Ec]. rewrite R. now rewrite app_assoc.
Qed.
Lemma send_all_stream f c l : forall data s s' rest, tctx s f = Some c -> send_all f data l s = Ok (s', rest) ->
  exists sent, data = sent ++ rest /\ tout s' c = tout s c ++ sent.
Proof.
  induction l as [|cs l IH]; intros data s s' rest E.
  - destruct data; cbn [send_all]; intros H; injection H as <- <-; exists []; cbn; now rewrite app_nil_r.
  - destruct data as [|b data]; [cbn [send_all]; intros H; injection H as <- <-; exists []; cbn; now rewrite app_nil_r|].
    set (d := b :: data) in *. change (send_all f d (cs :: l) s) with
      (do x <- tls_writer s f d (length d) 0 cs; if snd x <? 0 then Ok (fst x, d) else send_all f (skipn (Z.to_nat (snd x)) d) l (fst x)).
    destruct (tls_writer s f d (length d) 0 cs) as [[s1 z]| | |] eqn:R; cbn [bind]; try discriminate. cbn [fst snd].
    apply (writer_any s f c) in R; [|exact E]. destruct R as (R & _ & _ & Ec & _).
    destruct (Z.ltb_spec z 0).
    + intros H0. injection H0 as <- <-. exists []. cbn. rewrite R. replace (Z.to_nat z) with O by lia. cbn. auto.
    + intros H0. apply IH in H0; [|now rewrite Ec]. destruct H0 as (sent & E1 & E2).
      exists (firstn (Z.to_nat z) d ++ sent). rewrite <- app_assoc, <- E1, firstn_skipn. split; [reflexivity|]. rewrite E2, R. now rewrite app_assoc.
Qed.

(* ---- ownership over histories ---- *)
Lemma owned_ext s s' : topen s' = topen s -> tctx s' = tctx s -> tlive s' = tlive s -> tnext s' = tnext s -> owned s -> owned s'.
Proof. unfold owned. intros -> -> -> ->. auto. Qed.
Lemma owned_same f s s' lg : same f s s' lg -> owned s -> owned s'.
Proof. intros []. now apply owned_ext. Qed.
Lemma owned0 : owned tw0.
Proof.
  split; [intros c; split; [intros []|intros (f & [] & _)]|]. split; [discriminate|]. split; [reflexivity|]. split; [intros []|].
  split; [constructor|]. split; [constructor|intros c []].
Qed.
Lemma owned_fresh s : owned s -> ~ In (tnext s) (tlive s).
Proof. intros (_ & _ & _ & _ & _ & _ & H) I. apply H in I. lia. Qed.
Lemma owned_in s f c : owned s -> tctx s f = Some c -> In f (topen s) /\ In c (tlive s).
Proof.
  intros (A & _ & B & _) E. assert (I : In f (topen s)) by (destruct (in_dec Nat.eq_dec f (topen s)); [auto|rewrite B in E; [discriminate|auto]]).
  split; [exact I|]. apply A. eauto.
Qed.
Lemma owned_open s f : owned s -> f <> O -> ~ In f (topen s) -> owned (sys_open s f).
Proof.
  intros (A & B & C & D & E & F & G) H N. unfold owned. cbn.
  split; [intros c; rewrite A; split; intros (g & I & K); exists g; (split; [|exact K])|].
  - now right. - destruct I as [<-|I]; [rewrite C in K; [discriminate|exact N]|exact I].
  - split; [exact B|]. split; [intros g I; apply C; tauto|]. split; [intros [K|K]; [congruence|contradiction]|]. split; [constructor; auto|]. auto.
Qed.
Lemma owned_new s f input : owned s -> In f (topen s) -> tctx s f = None -> owned (set_ctx (new_ctx s input) f (Some (tnext s))).
Proof.
  intros O I N. pose proof (owned_fresh s O) as Fr. pose proof (fun g c => owned_in s g c O) as Hin. destruct O as (A & B & C & D & E & F & G). unfold owned. cbn.
  split; [intros c; split|].
  - intros [<-|K]; [exists f; split; [exact I|apply upd_eq]|]. apply A in K as (g & Ig & Eg). exists g. split; [exact Ig|]. rewrite upd_ne; [exact Eg|]. intros ->. congruence.
  - intros (g & Ig & Eg). destruct (Nat.eq_dec g f) as [->|Ne]; [rewrite upd_eq in Eg; left; congruence|]. rewrite upd_ne in Eg by auto. right. apply A. eauto.
  - split; [|split; [|split; [exact D|split; [exact E|split; [constructor; auto|]]]]].
    + intros g h c Eg Eh. destruct (Nat.eq_dec g f) as [->|Ng]; destruct (Nat.eq_dec h f) as [->|Nh]; auto.
      * rewrite upd_eq in Eg. rewrite upd_ne in Eh by auto. injection Eg as <-. apply Hin in Eh. tauto.
      * rewrite upd_eq in Eh. rewrite upd_ne in Eg by auto. injection Eh as <-. apply Hin in Eg. tauto.
      * rewrite upd_ne in Eg, Eh by auto. eapply B; eauto.
    + intros g K. rewrite upd_ne; [auto|]. intros ->. contradiction.
    + intros c [<-|K]; [lia|]. apply G in K. lia.
Qed.
Lemma NoDup_rm x l : NoDup l -> NoDup (remove Nat.eq_dec x l).
Proof.
  induction 1 as [|y l N D IH]; cbn [remove]; [constructor|]. destruct (Nat.eq_dec x y); [exact IH|]. constructor; [|exact IH].
  intros I. apply in_remove in I. tauto.
Qed.
(* taking a descriptor and its context away together *)
Lemma owned_drop s f c s' : owned s -> tctx s f = Some c -> topen s' = remove Nat.eq_dec f (topen s) -> tlive s' = remove Nat.eq_dec c (tlive s) ->
  tctx s' = upd (tctx s) f None -> tnext s' = tnext s -> owned s'.
Proof.
  intros O Ef E1 E2 E3 E4. destruct O as (A & B & C & D & E & F & G). unfold owned. rewrite E1, E2, E3, E4.
  split; [intros d; split|].
  - intros I. apply in_remove in I as (I & Nd). apply A in I as (g & Ig & Eg). exists g. assert (g <> f) by congruence.
    split; [now apply in_in_remove|]. now rewrite upd_ne.
  - intros (g & Ig & Eg). apply in_remove in Ig as (Ig & Ng). rewrite upd_ne in Eg by auto. apply in_in_remove; [|apply A; eauto].
    intros ->. apply Ng. eapply B; eauto.
  - split; [|split; [|split; [|split; [now apply NoDup_rm|split; [now apply NoDup_rm|]]]]].
    + intros g h d Eg Eh. destruct (Nat.eq_dec g f) as [->|Ng]; [rewrite upd_eq in Eg; discriminate|]. destruct (Nat.eq_dec h f) as [->|Nh]; [rewrite upd_eq in Eh; discriminate|].
      rewrite upd_ne in Eg, Eh by auto. eapply B; eauto.
    + intros g I. destruct (Nat.eq_dec g f) as [->|Ng]; [apply upd_eq|]. rewrite upd_ne by auto. apply C. intros K. apply I. now apply in_in_remove.
    + intros I. apply in_remove in I. tauto.
    + intros d I. apply in_remove in I as (I & _). auto.
Qed.
Lemma owned_drop_plain s f : owned s -> tctx s f = None -> owned (sys_close s f).
Proof.
  intros (A & B & C & D & E & F & G) Ef. unfold owned. cbn.
  split; [intros d; split|].
  - intros I. apply A in I as (g & Ig & Eg). exists g. split; [apply in_in_remove; [congruence|exact Ig]|exact Eg].
  - intros (g & Ig & Eg). apply in_remove in Ig as (Ig & Ng). apply A. eauto.
  - split; [exact B|]. split; [|split; [intros I; apply in_remove in I; tauto|split; [now apply NoDup_rm|auto]]].
    intros g I. destruct (Nat.eq_dec g f) as [->|Ng]; [exact Ef|]. apply C. intros K. apply I. now apply in_in_remove.
Qed.
Lemma closer_any s f : owned s -> f <> O -> exists s', tls_closer s f = Ok s' /\ owned s' /\ topen s' = remove Nat.eq_dec f (topen s) /\ tctx s' f = None /\
  (forall g, g <> f -> tctx s' g = tctx s g).
Proof.
  intros O F. destruct (tctx s f) as [c|] eqn:E.
  - destruct (closer_secure s f c F E) as (s' & H1 & H2 & H3 & H4 & H5 & _); [now apply (owned_in s f c O)|].
    exists s'. split; [exact H1|]. split; [now apply (owned_drop s f c s')|]. split; [exact H2|]. rewrite H4. split; [apply upd_eq|]. intros g Hg. now apply upd_ne.
  - exists (sys_close s f). split; [now apply closer_plain|]. split; [now apply owned_drop_plain|]. split; [reflexivity|]. split; [exact E|reflexivity].
Qed.
Lemma handshake_any f c l : forall s, In c (tlive s) -> handshake f c l s = Fuel \/
  exists s' rc lg, handshake f c l s = Ok (s', rc) /\ same f s s' lg /\ (rc = 0 \/ rc = -111 \/ (rc = -71 /\ ~ Forall (fun x => code_after (fst x) = 0) l)).
Proof.
  induction l as [|[a rep] l IH]; intros s L; cbn [handshake]; [now left|]. rewrite use_ok by auto. cbn [bind].
  assert (Rec : handshake f c l s = Fuel \/ True) by tauto. clear Rec.
  destruct a as [n|w k|k e].
  { right. exists s, 0, []. split; [reflexivity|]. split; [apply same_refl|now left]. }
  all: match goal with |- context [tls_poll ?s0 ?f0 ?a0 ?r0] => pose proof (poll_same f0 s0 a0 r0) as Sp; destruct (tls_poll s0 f0 a0 r0) as [s1 ok]; cbn [fst] in Sp end.
  all: cbv zeta; match type of Sp with same ?f0 _ ?s2 _ => pose proof (same_trans _ _ _ _ _ _ Sp (same_ev f0 s2 0)) as Sm end; unfold tlserr; destruct ok.
  1,3: change (0 <? 0) with false; cbv iota.
  1: destruct (IH (set_tev s1 f 0)) as [->|(s' & rc & lg & -> & Sm2 & Hr)];
    [now rewrite (sm_live _ _ _ _ Sm)|now left|right; exists s', rc; eexists; split; [reflexivity|]; split; [eapply same_trans; eauto|];
     destruct Hr as [Hr|[Hr|(Hr & Hn)]]; [now left|right; now left|right; right; split; [exact Hr|intros Fa; inversion Fa; auto]]].
  1: destruct (IH (set_tev s1 f 0)) as [->|(s' & rc & lg & -> & Sm2 & Hr)];
    [now rewrite (sm_live _ _ _ _ Sm)|now left|right; exists s', rc; eexists; split; [reflexivity|]; split; [eapply same_trans; eauto|];
     destruct Hr as [Hr|[Hr|(Hr & Hn)]]; [now left|right; now left|right; right; split; [exact Hr|intros Fa; inversion Fa; auto]]].
  - cbn [code_after]; destruct (Z.eqb_spec k 0) as [->|Hk].
    + change (- ECONNREFUSED <? 0) with true. right. eexists _, _, _. split; [reflexivity|]. split; [exact Sm|right; left; reflexivity].
    + change (- EPROTO <? 0) with true. right. eexists _, _, _. split; [reflexivity|]. split; [exact Sm|right; right; split; [reflexivity|intros Fa; inversion Fa; cbn in *; congruence]].
  - cbn [code_after]; destruct (Z.eqb_spec k 0) as [->|Hk].
    + change (- ECONNREFUSED <? 0) with true. right. eexists _, _, _. split; [reflexivity|]. split; [exact Sm|right; left; reflexivity].
    + change (- EPROTO <? 0) with true. right. eexists _, _, _. split; [reflexivity|]. split; [exact Sm|right; right; split; [reflexivity|intros Fa; inversion Fa; cbn in *; congruence]].
Qed.

Lemma nin_open s f : owned s -> ~ In f (topen s) -> tctx s f = None.
Proof. intros (_ & _ & C & _). apply C. Qed.
Lemma step_accept s srv r input ok code l : owned s -> fine s (TAccept srv r input ok code l) ->
  tls_accept s srv r input ok code l = Fuel \/ exists s' z, tls_accept s srv r input ok code l = Ok (s', z) /\ owned s' /\
   ((z = r /\ topen s' = Z.to_nat r :: topen s /\ (socket_is_secure s' r = socket_is_secure s (Z.of_nat srv))) \/
    (z <= 0 /\ (forall f, In f (topen s') <-> In f (topen s)))).
Proof.
  cbn [fine]. intros O (I & R & N). unfold tls_accept.
  assert (S0 : srv <> 0%nat) by (intros ->; destruct O as (_ & _ & _ & D & _); contradiction).
  destruct (Z.leb_spec 0 r); [|lia]. destruct (Nat.eqb_spec srv 0); [contradiction|].
  destruct (Z.eqb_spec r 0); [lia|]. destruct (Z.ltb_spec r 0); [lia|]. cbn [orb]. cbn [tctx sys_open set_open].
  set (f := Z.to_nat r) in *. assert (F0 : f <> 0%nat) by (unfold f; lia).
  pose proof (owned_open s f O F0 N) as O1. pose proof (nin_open s f O N) as Nf.
  assert (Sec : forall s' : tw, (match tctx s' f with Some _ => true | None => false end) = (match tctx s srv with Some _ => true | None => false end) ->
     socket_is_secure s' r = socket_is_secure s (Z.of_nat srv)).
  { intros s' Hs. unfold socket_is_secure. destruct (Z.leb_spec r 0); [lia|]. destruct (Z.leb_spec (Z.of_nat srv) 0); [lia|]. rewrite Nat2Z.id. exact Hs. }
  assert (Back : forall s1 : tw, owned s1 -> topen s1 = f :: topen s -> exists s2, tls_closer s1 f = Ok s2 /\ owned s2 /\ forall g, In g (topen s2) <-> In g (topen s)).
  { intros s1 Os Es. destruct (closer_any s1 f Os F0) as (s2 & E2 & O2 & T2 & _). exists s2. split; [exact E2|]. split; [exact O2|].
    intros g. rewrite T2, Es. cbn [remove]. destruct (Nat.eq_dec f f); [|congruence]. rewrite notin_remove by auto. tauto. }
  destruct (tctx s srv) as [sc|] eqn:Es.
  - rewrite use_ok by (cbn; now apply (owned_in s srv sc O)). cbn [bind]. destruct ok.
    + pose proof (owned_new (sys_open s f) f input O1 (or_introl eq_refl) Nf) as O2.
      destruct (handshake_any f (tnext (sys_open s f)) l (set_ctx (new_ctx (sys_open s f) input) f (Some (tnext (sys_open s f))))) as [->|(s' & rc & lg & -> & Sm & Hr)]; [left; reflexivity|now left|].
      right. cbn [bind]. pose proof (owned_same _ _ _ _ Sm O2) as O3. destruct Sm.
      destruct Hr as [->|[->|[-> _]]].
      * change (0 <? 0) with false. cbn [bind]. change (0 =? 0) with true. cbv iota. exists s', r. split; [reflexivity|]. split; [exact O3|]. left. split; [reflexivity|].
        split; [now rewrite sm_open0|]. apply Sec. rewrite sm_ctx0. cbn. now rewrite upd_eq.
      * change (-111 <? 0) with true. cbv iota. destruct (Back s' O3 sm_open0) as (s2 & -> & O4 & T4). cbn [bind]. exists s2, 0. split; [reflexivity|]. split; [exact O4|]. right. split; [lia|exact T4].
      * change (-71 <? 0) with true. cbv iota. destruct (Back s' O3 sm_open0) as (s2 & -> & O4 & T4). cbn [bind]. exists s2, (-1). split; [reflexivity|]. split; [exact O4|]. right. split; [lia|exact T4].
    + right. assert (O3 : owned (set_ctx (sys_open s f) f None)).
      { destruct O1 as (A & B & C & D & E & F & G). assert (Ex : forall g, upd (tctx s) f None g = tctx s g) by (intros g; destruct (Nat.eq_dec g f) as [->|]; [rewrite upd_eq; auto|now apply upd_ne]).
        unfold owned. cbn. split; [intros c; rewrite (A c); split; intros (g & H1 & H2); exists g; (split; [exact H1|]); [rewrite Ex; exact H2|rewrite Ex in H2; exact H2]|].
        split; [intros g h c; rewrite !Ex; apply B|]. split; [intros g Hg; rewrite Ex; now apply C|auto]. }
      destruct (Back (set_ctx (sys_open s f) f None) O3 eq_refl) as (s2 & E2 & O4 & T4).
      unfold tlserr. cbn [bind]. destruct (code =? 0).
      * change (- ECONNREFUSED <? 0) with true. cbv iota. rewrite E2. cbn [bind]. exists s2, 0. split; [reflexivity|]. split; [exact O4|]. right. split; [lia|exact T4].
      * change (- EPROTO <? 0) with true. cbv iota. rewrite E2. cbn [bind]. exists s2, (-1). split; [reflexivity|]. split; [exact O4|]. right. split; [lia|exact T4].
  - right. cbn [bind]. change (0 <? 0) with false. cbn [bind]. exists (sys_open s f), r. split; [reflexivity|]. split; [exact O1|]. left. split; [reflexivity|]. split; [reflexivity|].
    apply Sec. cbn. now rewrite Nf.
Qed.
Lemma owned_ev s f v : owned s -> owned (set_tev s f v).
Proof. apply owned_ext; reflexivity. Qed.
Lemma step_dial s host r ev0 cfg ca input cl conf ok code l : owned s -> fine s (TDial host r ev0 cfg ca input cl conf ok code l) ->
  tls_dial s host r ev0 cfg ca input cl conf ok code l = Fuel \/ exists s' z, tls_dial s host r ev0 cfg ca input cl conf ok code l = Ok (s', z) /\ owned s' /\
   ((z = r /\ topen s' = Z.to_nat r :: topen s /\ socket_is_secure s' r = true) \/ z = -22).
Proof.
  cbn [fine]. intros O Fi. unfold tls_dial. destruct host; cbn [negb]; [|right; exists s, (-22); auto].
  destruct (Z.leb_spec r 0); [right; exists s, (-22); auto|]. destruct Fi as [Fi|[Fi|(N & Fi)]]; [discriminate|lia|].
  set (f := Z.to_nat r) in *. assert (F0 : f <> 0%nat) by (unfold f; lia).
  pose proof (owned_open s f O F0 N) as O1. pose proof (nin_open s f O N) as Nf.
  set (s1 := set_tev (sys_open s f) f ev0). assert (O1' : owned s1) by (now apply owned_ev).
  destruct (cfg && ca); [|right; exists s1, (-22); auto]. destruct Fi as [Fi|(-> & -> & -> & Fa)]; [discriminate|].
  unfold async_tls_connect. cbv zeta. change (0 =? 0) with true. cbv iota.
  pose proof (owned_new s1 f input O1' (or_introl eq_refl) Nf) as O2.
  set (s2 := set_ctx (new_ctx s1 input) f (Some (tnext s1))) in *.
  assert (Hd : (do x <- (if ok then handshake f (tnext s1) l s2 else Ok (s2, tlserr false 0)); Ok x) = Fuel \/
     exists s' rc lg, (if ok then handshake f (tnext s1) l s2 else Ok (s2, tlserr false 0)) = Ok (s', rc) /\ same f s2 s' lg /\ (rc = 0 \/ rc = -111)).
  { destruct ok.
    - destruct (handshake_any f (tnext s1) l s2) as [->|(s' & rc & lg & -> & Sm & Hr)]; [left; reflexivity|now left|].
      right. exists s', rc, lg. split; [reflexivity|]. split; [exact Sm|]. tauto.
    - right. exists s2, (-111), []. split; [reflexivity|]. split; [apply same_refl|now right]. }
  destruct Hd as [Hd|(s' & rc & lg & -> & Sm & Hr)].
  { left. destruct (if ok then handshake f (tnext s1) l s2 else Ok (s2, tlserr false 0)); try discriminate. reflexivity. }
  right. cbn [bind]. pose proof (owned_same _ _ _ _ Sm O2) as O3. destruct Sm.
  assert (Ec : tctx s' f = Some (tnext s1)) by (rewrite sm_ctx0; cbn; apply upd_eq).
  destruct Hr as [->| ->].
  - change (0 <? 0) with false. cbn [bind]. change (0 =? 0) with true. cbv iota. exists s', r. split; [reflexivity|]. split; [exact O3|]. left. split; [reflexivity|].
    split; [now rewrite sm_open0|]. unfold socket_is_secure. destruct (Z.leb_spec r 0); [lia|]. fold f. now rewrite Ec.
  - change (-111 <? 0) with true. change (-111 =? - ECONNREFUSED) with true. change (-111 =? 0) with false. cbv iota. rewrite Ec.
    unfold tls_free. rewrite use_ok by (now apply (owned_in s' f _ O3)). cbn [bind]. eexists _, _. split; [reflexivity|]. split; [|now right].
    eapply (owned_drop s' f); [exact O3|exact Ec|reflexivity|reflexivity|reflexivity|reflexivity].
Qed.
Lemma step_bind s host r cfg keys srv conf : owned s -> fine s (TBind host r cfg keys srv conf) ->
  exists s' z, tls_bind s host r cfg keys srv conf = Ok (s', z) /\ owned s' /\ ((z = r /\ socket_is_secure s' r = true) \/ z = -22).
Proof.
  cbn [fine]. intros O Fi. unfold tls_bind. destruct host; cbn [negb]; [|exists s, (-22); auto].
  destruct (Z.leb_spec r 0); [exists s, (-22); auto|]. destruct Fi as [Fi|N]; [lia|].
  set (f := Z.to_nat r) in *. assert (F0 : f <> 0%nat) by (unfold f; lia).
  pose proof (owned_open s f O F0 N) as O1. pose proof (nin_open s f O N) as Nf.
  unfold tls_socket_bind. destruct cfg; [|eexists _, _; split; [reflexivity|]; split; [exact O1|now right]].
  destruct keys; [|eexists _, _; split; [reflexivity|]; split; [exact O1|now right]].
  destruct srv.
  - pose proof (owned_new (sys_open s f) f [] O1 (or_introl eq_refl) Nf) as O2. destruct conf; eexists _, _; (split; [reflexivity|]); (split; [exact O2|]); [left|now right].
    unfold f. split; [lia|]. unfold socket_is_secure. destruct (Z.leb_spec r 0); [lia|]. cbn. fold f. now rewrite upd_eq.
  - eexists _, _. split; [reflexivity|]. split; [|now right].
    destruct O1 as (A & B & C & D & E & F & G). assert (Ex : forall g, upd (tctx s) f None g = tctx s g) by (intros g; destruct (Nat.eq_dec g f) as [->|]; [rewrite upd_eq; auto|now apply upd_ne]).
    unfold owned. cbn. split; [intros c; rewrite (A c); split; intros (g & H1 & H2); exists g; (split; [exact H1|]); [rewrite Ex; exact H2|rewrite Ex in H2; exact H2]|].
    split; [intros g h c; rewrite !Ex; apply B|]. split; [intros g Hg; rewrite Ex; now apply C|auto].
Qed.
Lemma strlen_ok buf : In 0 buf -> exists n, strlen buf = Ok n /\ (n <= length buf)%nat.
Proof.
  induction buf as [|x buf IH]; [intros []|]. intros I. cbn [strlen length]. destruct (Z.eqb_spec x 0); [exists O; split; [reflexivity|lia]|].
  destruct I as [I|I]; [congruence|]. destruct (IH I) as (n' & -> & L). exists (S n'). split; [reflexivity|lia].
Qed.
Lemma read_fuel f c max l : forall s, In c (tlive s) -> read_loop f c max l s = Fuel \/ exists x, read_loop f c max l s = Ok x.
Proof.
  induction l as [|[a rep] l IH]; intros s L; cbn [read_loop]; [now left|]. rewrite use_ok by auto. cbn [bind].
  destruct a as [n|w k|k []]; [right; eexists; reflexivity| |right; eexists; reflexivity|].
  all: match goal with |- context [tls_poll ?s0 ?f0 ?a0 ?r0] => pose proof (poll_same f0 s0 a0 r0) as Sp; destruct (tls_poll s0 f0 a0 r0) as [s1 ok]; cbn [fst] in Sp end.
  all: cbv zeta; match goal with |- context [if ?b then _ else _] => destruct b end; [right; eexists; reflexivity|].
  all: match goal with IH : forall s, _ |- _ => apply IH end; cbn; match goal with Sp : same _ _ _ _ |- _ => now rewrite (sm_live _ _ _ _ Sp) end.
Qed.
Lemma write_fuel f c data l : forall s, In c (tlive s) -> write_loop f c data l s = Fuel \/ exists x, write_loop f c data l s = Ok x.
Proof.
  induction l as [|[a rep] l IH]; intros s L; cbn [write_loop]; [now left|]. rewrite use_ok by auto. cbn [bind].
  destruct a as [n|w k|k e]; [right; eexists; reflexivity| |].
  all: match goal with |- context [tls_poll ?s0 ?f0 ?a0 ?r0] => pose proof (poll_same f0 s0 a0 r0) as Sp; destruct (tls_poll s0 f0 a0 r0) as [s1 ok]; cbn [fst] in Sp end.
  all: cbv zeta; match goal with |- context [if ?b then _ else _] => destruct b end; [right; eexists; reflexivity|].
  all: match goal with IH : forall s, _ |- _ => apply IH end; cbn; match goal with Sp : same _ _ _ _ |- _ => now rewrite (sm_live _ _ _ _ Sp) end.
Qed.
Lemma step_owned s o : owned s -> fine s o -> tstep s o = Fuel \/ exists s' z, tstep s o = Ok (s', z) /\ owned s'.
Proof.
  intros O Fi. destruct o as [srv r input ok code l|host r ev0 cfg ca input cl conf ok code l|host r cfg keys srv conf|f|f max plain l|f buf len plain l|f|f]; cbn [tstep].
  - destruct (step_accept s srv r input ok code l O Fi) as [->|(s' & z & -> & O' & _)]; [now left|right; eauto].
  - destruct (step_dial s host r ev0 cfg ca input cl conf ok code l O Fi) as [->|(s' & z & -> & O' & _)]; [now left|right; eauto].
  - destruct (step_bind s host r cfg keys srv conf O Fi) as (s' & z & -> & O' & _); right; eauto.
  - right. cbn [fine] in Fi. destruct (closer_any s f O) as (s' & -> & O' & _); [intros ->; destruct O as (_ & _ & _ & D & _); contradiction|]. cbn [bind]. eauto.
  - unfold tls_reader. destruct (tctx s f) as [c|] eqn:E; [|right; cbn [bind]; eauto].
    destruct (read_fuel f c max l s) as [->|([s' [z got]] & R)]; [now apply (owned_in s f c O)|now left|]. rewrite R. cbn [bind]. right. exists s', z. split; [reflexivity|].
    apply read_any in R. destruct R as (_ & _ & _ & _ & R1 & R2 & R3 & R4 & _). eapply owned_ext; eauto.
  - cbn [fine] in Fi. destruct Fi as (I & B & B0). unfold tls_writer.
    assert (exists count, (if Nat.eqb len 0 then strlen buf else Ok len) = Ok count /\ (count <= length buf)%nat) as (count & -> & Bc).
    { destruct (Nat.eqb_spec len 0); [destruct (strlen_ok buf (B0 e)) as (n & -> & Hn); eauto|eauto]. }
    cbn [bind]. destruct (tctx s f) as [c|] eqn:E; [|right; eauto]. destruct (Nat.leb_spec count (length buf)); [|lia].
    destruct (write_fuel f c (firstn count buf) l s) as [->|([s' z] & R)]; [now apply (owned_in s f c O)|now left|]. right. exists s', z. split; [exact R|].
    apply write_any in R. destruct R as (_ & _ & R1 & R2 & R3 & R4 & _). eapply owned_ext; eauto.
  - right. cbn [fine] in Fi. destruct Fi as (F0 & N). eexists _, _. split; [reflexivity|]. apply owned_open; auto. lia.
  - right. cbn [fine] in Fi. destruct Fi as (F0 & N). eexists _, _. split; [reflexivity|]. now apply owned_drop_plain.
Qed.
Lemma run_owned l : forall s, owned s -> fine_run s l -> trun s l = Fuel \/ exists s' zs, trun s l = Ok (s', zs) /\ owned s'.
Proof.
  induction l as [|o l IH]; intros s O Fi; cbn [trun]; [right; eauto|]. destruct Fi as (Fo & Fr).
  destruct (step_owned s o O Fo) as [->|(s1 & z & E & O1)]; [now left|]. rewrite E. cbn [bind fst snd].
  destruct (IH s1 O1 (Fr _ _ E)) as [->|(s2 & zs & -> & O2)]; [now left|]. right. cbn [bind]. eauto.
Qed.
(* a program that then closes all it has open has no context left *)
Lemma close_all s : owned s -> exists s' zs, trun s (map TCloser (topen s)) = Ok (s', zs) /\ topen s' = [] /\ tlive s' = [].
Proof.
  remember (topen s) as l eqn:El. revert s El. induction l as [|f l IH]; intros s El O.
  - exists s, []. split; [reflexivity|]. split; [auto|]. destruct (tlive s) as [|c k] eqn:E; [reflexivity|]. destruct O as (A & _).
    destruct (proj1 (A c)) as (f & I & _); [rewrite E; left; reflexivity|]. rewrite <- El in I. destruct I.
  - assert (F0 : f <> 0%nat) by (intros ->; destruct O as (_ & _ & _ & D & _); apply D; rewrite <- El; left; reflexivity).
    destruct (closer_any s f O F0) as (s1 & E1 & O1 & T1 & _). cbn [map trun tstep]. rewrite E1. cbn [bind fst snd].
    assert (E2 : topen s1 = l). { rewrite T1, <- El. cbn [remove]. destruct (Nat.eq_dec f f); [|congruence]. apply notin_remove.
      destruct O as (_ & _ & _ & _ & Nd & _). rewrite <- El in Nd. now inversion Nd. }
    destruct (IH s1 (eq_sym E2) O1) as (s2 & zs & -> & H1 & H2). cbn [bind]. exists s2. eexists. split; [reflexivity|]. auto.
Qed.

(* ---- what goes wrong ---- *)
(* close(2) of a secure descriptor keeps its context: the next socket with that number reads the old session *)
Lemma plain_close s f c max n rep : owned s -> tctx s f = Some c -> tin s c <> [] -> (0 < n)%nat -> (0 < max)%nat ->
  exists s', trun s [TClose f; TOpen f] = Ok (s', [0; Z.of_nat f]) /\ socket_is_secure s' (Z.of_nat f) = true /\ In c (tlive s') /\
    exists s'', tls_reader s' f max (0, []) [(ADone n, rep)] =
       Ok (s'', (Z.of_nat (length (firstn (Nat.min n max) (tin s c))), firstn (Nat.min n max) (tin s c))) /\ firstn (Nat.min n max) (tin s c) <> [].
Proof.
  intros O E Ni Hn Hm. assert (F0 : f <> 0%nat) by (intros ->; destruct (owned_in s 0%nat c O E) as (I & _); destruct O as (_ & _ & _ & D & _); contradiction).
  cbn [trun tstep bind fst snd]. eexists. split; [reflexivity|]. split; [unfold socket_is_secure; destruct (Z.leb_spec (Z.of_nat f) 0); [lia|]; rewrite Nat2Z.id; cbn; now rewrite E|].
  pose proof (proj2 (owned_in s f c O E)) as Li. split; [exact Li|].
  destruct (read_done (sys_open (sys_close s f) f) f c max (0, []) [] n rep [] E Li (Forall_nil _)) as (s'' & R & _). exists s''. split; [exact R|].
  destruct (tin s c); [congruence|]. destruct n; [lia|]. destruct max; [lia|]. discriminate.
Qed.
(* a handler that closes its connection itself: the closing deferred for it takes another connection that got the number *)
Lemma double_close s srv sc f c input rep : owned s -> tctx s srv = Some sc -> tctx s f = Some c -> f <> srv ->
  exists s1 s2 s3, tls_closer s f = Ok s1 /\ tls_accept s1 srv (Z.of_nat f) input true 0 [(ADone 0, rep)] = Ok (s2, Z.of_nat f) /\ In f (topen s2) /\
    tls_closer s2 f = Ok s3 /\ ~ In f (topen s3).
Proof.
  intros O E1 E2 Ne. pose proof (owned_in s srv sc O E1) as (I1 & L1). pose proof (owned_in s f c O E2) as (I2 & L2).
  assert (F0 : f <> 0%nat) by (intros ->; destruct O as (_ & _ & _ & D & _); contradiction).
  assert (S0 : srv <> 0%nat) by (intros ->; destruct O as (_ & _ & _ & D & _); contradiction).
  destruct (closer_any s f O F0) as (s1 & C1 & O1 & T1 & N1 & X1).
  assert (E1' : tctx s1 srv = Some sc) by (rewrite X1; auto).
  destruct (accept_done s1 srv sc f input 0 [] 0 rep [] S0 E1' (proj2 (owned_in s1 srv sc O1 E1'))) as (s2 & A2 & T2 & _); [lia|constructor|].
  assert (Nf : ~ In f (topen s1)) by (rewrite T1; apply remove_In).
  assert (O2 : owned s2).
  { destruct (step_accept s1 srv (Z.of_nat f) input true 0 ([] ++ [(ADone 0, rep)]) O1) as [A|(s2' & z & A & O2 & _)]; [cbn [fine]; rewrite Nat2Z.id; split; [apply (owned_in s1 srv sc O1 E1')|split; [lia|exact Nf]]|congruence|congruence]. }
  destruct (closer_any s2 f O2 F0) as (s3 & C3 & O3 & T3 & _).
  exists s1, s2, s3. split; [exact C1|]. split; [exact A2|]. split; [rewrite T2; left; reflexivity|]. split; [exact C3|]. rewrite T3. apply remove_In.
Qed.
(* setting the same listener up again loses its first context *)
Lemma bind_twice s f c : owned s -> tctx s f = Some c ->
  exists s', tls_socket_bind s f true true true = Ok (s', Z.of_nat f) /\ In c (tlive s') /\ forall g, tctx s' g <> Some c.
Proof.
  intros O E. pose proof (owned_in s f c O E) as (I & L). pose proof (owned_fresh s O) as Fr. destruct O as (_ & B & _).
  eexists. split; [reflexivity|]. split; [right; exact L|]. intros g Eg. cbn in Eg. destruct (Nat.eq_dec g f) as [->|Ne]; [rewrite upd_eq in Eg; injection Eg as <-; contradiction|].
  rewrite upd_ne in Eg by auto. apply Ne. eapply B; eauto.
Qed.
(* the peer sent its last bytes and closed: the report is a hang-up, and the bytes are never given *)
Lemma read_hangup s f c max k rest : tctx s f = Some c -> In c (tlive s) -> k = 0 -> tin s c <> [] ->
  exists s', tls_reader s f max (0, []) ((AWant false k, 5) :: rest) = Ok (s', (-111, [])) /\ tin s' c <> [].
Proof.
  intros E L -> N. destruct (read_fails s f c max (0, []) [] (AWant false 0) 5 rest E L (Forall_nil _)) as (s' & R & Ti & _); [cbn; unfold ready; lia|discriminate|].
  exists s'. split; [exact R|]. now rewrite Ti.
Qed.
Lemma accept_hangup s srv sc f input n rep rest : srv <> O -> tctx s srv = Some sc -> In sc (tlive s) -> (0 < f)%nat -> ~ In f (topen s) -> ~ In (tnext s) (tlive s) ->
  exists s', tls_accept s srv (Z.of_nat f) input true 0 ((AWant false 0, 5) :: (ADone n, rep) :: rest) = Ok (s', 0) /\ topen s' = topen s.
Proof.
  intros. destruct (accept_fails s srv sc f input 0 [] (AWant false 0) 5 ((ADone n, rep) :: rest)) as (s' & E & To & _); auto; [constructor|cbn; unfold ready; lia|].
  exists s'. split; [exact E|exact To].
Qed.
(* the connection is made although the library failed, when the library answers again *)
Lemma accept_stale s srv sc f input k eof rep n rep2 rest : srv <> O -> tctx s srv = Some sc -> In sc (tlive s) -> (0 < f)%nat -> ready (tev s f) ->
  exists s', tls_accept s srv (Z.of_nat f) input true 0 ((AFail k eof, rep) :: (ADone n, rep2) :: rest) = Ok (s', Z.of_nat f) /\ In f (topen s').
Proof.
  intros S0 E L F R. unfold tls_accept.
  destruct (Z.leb_spec 0 (Z.of_nat f)); [|lia]. destruct (Nat.eqb_spec srv 0); [contradiction|].
  destruct (Z.eqb_spec (Z.of_nat f) 0); [lia|]. destruct (Z.ltb_spec (Z.of_nat f) 0); [lia|]. cbn [orb]. rewrite Nat2Z.id.
  cbn [tctx sys_open set_open]. rewrite E. rewrite use_ok by (cbn; auto). cbn [bind].
  rewrite handshake_stale; [|left; reflexivity|exact R]. cbn [handshake]. rewrite use_ok by (left; reflexivity). cbn [bind].
  change (0 <? 0) with false. cbn [bind]. change (0 =? 0) with true. cbv iota. eexists. split; [reflexivity|]. left. reflexivity.
Qed.
Lemma secure_iff s f : owned s -> (0 < f)%nat -> (socket_is_secure s (Z.of_nat f) = true <-> exists c, In c (tlive s) /\ tctx s f = Some c).
Proof.
  intros O F. unfold socket_is_secure. destruct (Z.leb_spec (Z.of_nat f) 0); [lia|]. rewrite Nat2Z.id. destruct (tctx s f) as [c|] eqn:E.
  - split; [intros _; exists c; split; [now apply (owned_in s f c O)|reflexivity]|reflexivity].
  - split; [discriminate|intros (c & _ & K); discriminate].
Qed.
