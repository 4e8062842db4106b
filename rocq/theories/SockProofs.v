(* Specification and proofs for SockModel.v *)
From Verif Require Import Base StrModel StrProofs SockModel.
Local Open Scope Z_scope.

(* ---- opening: specification ---- *)

(* descriptors left open and records left allocated by a sequence of actions *)
Fixpoint left_open (l : list sact) (fds : list Z) : list Z :=
  match l with
  | [] => fds
  | SOpen _ _ fd :: r => left_open r (fd :: fds)
  | SClose fd :: r => left_open r (filter (fun x => negb (x =? fd)) fds)
  | _ :: r => left_open r fds
  end.
Fixpoint left_recs (l : list sact) (n : Z) : Z :=
  match l with [] => n | SAlloc :: r => left_recs r (n + 1) | SFree :: r => left_recs r (n - 1) | _ :: r => left_recs r n end.
Definition nothing_left (l : list sact) : Prop := left_open l [] = [] /\ left_recs l 0 = 0.
(* open, not blocking, and its record (for local sockets only) found from the descriptor *)
Definition ready (l : list sact) (unix : bool) (fd : Z) : Prop :=
  left_open l [] = [fd] /\ left_recs l 0 = (if unix then 1 else 0) /\ In (SNonblock fd) l /\ In (STarget fd unix) l.

Ltac sock_cases := repeat match goal with |- context [if ?b then _ else _] => destruct b eqn:? end; cbn [fst snd andb negb app left_open left_recs In filter].

Lemma eqb_refl_neg fd : negb (fd =? fd) = false.
Proof. rewrite Z.eqb_refl. reflexivity. Qed.

Ltac fin := rewrite ?eqb_refl_neg; cbn; repeat split; try lia; try tauto; auto 8.

Lemma socket_failed unix stream fam fd b l : (unix && stream && b && negb l = false) ->
  snd (async_socket unix stream fam fd b l) = -1 -> nothing_left (fst (async_socket unix stream fam fd b l)).
Proof.
  intros H. unfold async_socket, nothing_left. destruct (fd <? 0) eqn:F.
  - destruct unix; intros _; cbn; auto.
  - destruct unix, stream, b, l; cbn in *; try discriminate H; rewrite ?eqb_refl_neg; cbn; auto; lia.
Qed.

Lemma socket_leaks fam fd : 0 <= fd ->
  snd (async_socket true true fam fd true false) = -1 /\ left_recs (fst (async_socket true true fam fd true false)) 0 = 1.
Proof. intros F. unfold async_socket. replace (fd <? 0) with false by lia. cbn. auto. Qed.

Lemma socket_done unix stream fam fd b l r : snd (async_socket unix stream fam fd b l) = r -> r <> -1 -> r = fd /\
  ready (fst (async_socket unix stream fam fd b l)) unix fd /\ In (SOpen fam stream fd) (fst (async_socket unix stream fam fd b l)) /\
  In (SBind fd fam true) (fst (async_socket unix stream fam fd b l)) /\
  (stream = true -> In (SListen fd true) (fst (async_socket unix stream fam fd b l))).
Proof.
  intros <- H. unfold async_socket, ready in *. destruct (fd <? 0); [destruct H; reflexivity|].
  destruct unix, stream, b, l; cbn in *; try (destruct H; reflexivity); repeat split; auto 8; discriminate.
Qed.

Lemma bind_failed unix stream parsed fd b l :
  snd (async_bind unix stream parsed fd b l) = -1 -> nothing_left (fst (async_bind unix stream parsed fd b l)).
Proof.
  unfold async_bind, nothing_left. destruct unix.
  - destruct (fd <? 0) eqn:F; [cbn; auto|]. destruct stream, b, l; cbn; rewrite ?eqb_refl_neg; cbn; auto; lia.
  - destruct parsed as [fam|]; [|cbn; auto]. destruct (fd <? 0) eqn:F; [cbn; auto|].
    destruct stream, b, l; cbn; rewrite ?eqb_refl_neg; cbn; auto; lia.
Qed.

Lemma bind_done unix stream parsed fd b l r : snd (async_bind unix stream parsed fd b l) = r -> r <> -1 -> r = fd /\
  ready (fst (async_bind unix stream parsed fd b l)) unix fd /\
  exists fam, (if unix then Some AF_UNIX else parsed) = Some fam /\ In (SBind fd fam true) (fst (async_bind unix stream parsed fd b l)).
Proof.
  intros <- H. unfold async_bind, ready in *. destruct unix.
  - destruct (fd <? 0); [destruct H; reflexivity|]. destruct stream, b; cbn in *; try (destruct H; reflexivity); (repeat split); auto 9; exists AF_UNIX; auto 9.
  - destruct parsed as [fam|]; [|destruct H; reflexivity]. destruct (fd <? 0); [destruct H; reflexivity|].
    destruct stream, b; cbn in *; try (destruct H; reflexivity); (repeat split); auto 9; exists fam; auto 9.
Qed.

Lemma bind_deaf unix parsed fd : 0 <= fd -> (unix = true \/ parsed <> None) ->
  snd (async_bind unix true parsed fd true false) = fd /\ ~ In (SListen fd true) (fst (async_bind unix true parsed fd true false)).
Proof.
  intros F P. unfold async_bind. replace (fd <? 0) with false by lia.
  destruct unix; [|destruct parsed as [fam|]; [|destruct P as [P|P]; [discriminate P | congruence]]];
    cbn; (split; [reflexivity|]); intros I; repeat (destruct I as [I | I]; [discriminate I|]); exact I.
Qed.

(* bind(2) refuses an address of another family than the socket's *)
Definition lawful (l : list sact) : Prop :=
  forall fd fam fam' st, In (SOpen fam st fd) l -> In (SBind fd fam' true) l -> fam = fam'.

Lemma bind_six stream fd b l : lawful (fst (async_bind false stream (Some AF_INET6) fd b l)) ->
  snd (async_bind false stream (Some AF_INET6) fd b l) = -1.
Proof.
  unfold async_bind. destruct (fd <? 0) eqn:F; [reflexivity|]. destruct b; [|reflexivity]. intros L. exfalso.
  assert (E : AF_INET = AF_INET6).
  { apply (L fd _ _ stream); cbn; destruct stream; cbn; auto. }
  discriminate E.
Qed.

Lemma connect_failed unix stream parsed fd c p :
  snd (async_connect unix stream parsed fd c p) = -1 -> nothing_left (fst (async_connect unix stream parsed fd c p)).
Proof.
  unfold async_connect, nothing_left. destruct unix.
  - destruct (fd <? 0) eqn:F; [cbn; auto|]. destruct stream, c, p; cbn; rewrite ?eqb_refl_neg; cbn; auto; lia.
  - destruct parsed as [fam|]; [|cbn; auto]. destruct (fd <? 0) eqn:F; [cbn; auto|].
    destruct stream, c, p; cbn; rewrite ?eqb_refl_neg; cbn; auto; lia.
Qed.

Lemma connect_done unix stream parsed fd c p r : snd (async_connect unix stream parsed fd c p) = r -> r <> -1 -> r = fd /\
  ready (fst (async_connect unix stream parsed fd c p)) unix fd /\
  exists fam, (if unix then Some AF_UNIX else parsed) = Some fam /\ In (SOpen fam stream fd) (fst (async_connect unix stream parsed fd c p)) /\
    In (SConnect fd fam true) (fst (async_connect unix stream parsed fd c p)).
Proof.
  intros <- H. unfold async_connect, ready in *. destruct unix.
  - destruct (fd <? 0); [destruct H; reflexivity|]. destruct c, p; cbn in *; try (destruct H; reflexivity); (repeat split); auto 9; exists AF_UNIX; auto 9.
  - destruct parsed as [fam|]; [|destruct H; reflexivity]. destruct (fd <? 0); [destruct H; reflexivity|].
    destruct c, p; cbn in *; try (destruct H; reflexivity); (repeat split); auto 9; exists fam; auto 9.
Qed.

(* ---- names ---- *)

Lemma upto_nul_app s t : nul_free s -> upto_nul (s ++ 0 :: t) = s.
Proof.
  induction s as [|c s IH]; intros N; cbn [app upto_nul]; [reflexivity|]. inversion N as [|? ? N1 N2]; subst.
  replace (c =? 0) with false by lia. rewrite IH by exact N2. reflexivity.
Qed.
Lemma upto_nul_free s : nul_free s -> upto_nul s = s.
Proof.
  induction s as [|c s IH]; intros N; cbn [upto_nul]; [reflexivity|]. inversion N as [|? ? N1 N2]; subst.
  replace (c =? 0) with false by lia. rewrite IH by exact N2. reflexivity.
Qed.

Lemma nul_free_firstn n s : nul_free s -> nul_free (firstn n s).
Proof.
  revert s. induction n as [|n IH]; intros s N; cbn [firstn]; [constructor|]. destruct s as [|c s]; [constructor|].
  inversion N; subst. constructor; auto. apply IH. assumption.
Qed.

(* the name is the path cut at 107 bytes and at what the length given covers *)
Lemma name_of_path path len : nul_free path -> (2 <= len)%nat -> name_of path len = firstn (Nat.min (len - 2) 107) path.
Proof.
  intros N L. unfold name_of, sun_path. cbv zeta. change (PATHLEN - 1)%nat with 107%nat.
  set (w := firstn 107 path). assert (W : (length w <= 107)%nat) by (unfold w; rewrite firstn_length; lia).
  destruct (Nat.le_gt_cases (len - 2) (length w)) as [C | C].
  - rewrite firstn_app. replace (len - 2 - length w)%nat with 0%nat by lia. cbn [firstn]. rewrite app_nil_r.
    rewrite upto_nul_free by (apply nul_free_firstn, nul_free_firstn; exact N). unfold w. rewrite firstn_firstn. reflexivity.
  - rewrite firstn_app. rewrite firstn_all2 by lia. replace (PATHLEN - length w)%nat with (S (107 - length w)) by (unfold PATHLEN; lia).
    replace (len - 2 - length w)%nat with (S (len - 3 - length w)) by lia. cbn [repeat firstn]. rewrite upto_nul_app by (apply nul_free_firstn; exact N).
    unfold w in *. rewrite firstn_length in C. destruct (Nat.le_gt_cases 107 (length path)).
    + replace (Nat.min (len - 2) 107) with 107%nat by lia. reflexivity.
    + rewrite !firstn_all2 by lia. reflexivity.
Qed.

Lemma names_meet path : nul_free path -> (length path <= 106)%nat -> bound_name path = path /\ connect_name path = path.
Proof.
  intros N L. unfold bound_name, connect_name. rewrite !name_of_path by (exact N || (unfold PATHLEN; lia)).
  unfold PATHLEN. split; apply firstn_all2; lia.
Qed.
Lemma names_differ path : nul_free path -> (107 <= length path)%nat -> bound_name path <> connect_name path.
Proof.
  intros N L E. unfold bound_name, connect_name in E. rewrite !name_of_path in E by (exact N || (unfold PATHLEN; lia)).
  apply (f_equal (@length Z)) in E. rewrite !firstn_length in E. unfold PATHLEN in E. lia.
Qed.

(* ---- datagrams: specification ---- *)

(* what is known of a packet: descriptor, datagram, sender, flags *)
Record uinfo := { ifd : Z; idata : bytes; isender : Z; iflags : Z }.
(* [lkept]: the last packet of a descriptor (or what it was opened with); [luse]: the last packet received and
   not followed by another call of udp_recv; [lended]: packets whose handler is over *)
Record uspec := { linfo : list uinfo; lkept : Z -> option nat; luse : Z -> option nat; lended : list nat }.
Definition sopen (sp : uspec) (fd flags a : Z) : uspec :=
  {| linfo := linfo sp ++ [{| ifd := fd; idata := []; isender := a; iflags := flags |}]; lkept := zupd (lkept sp) fd (Some (length (linfo sp)));
     luse := zupd (luse sp) fd None; lended := lended sp |}.
(* the packet may be used: it is the last one received on its descriptor *)
Definition usable (sp : uspec) (i : nat) : option uinfo :=
  match nth_error (linfo sp) i with
  | Some x => match luse sp (ifd x) with Some j => if (i =? j)%nat then Some x else None | None => None end
  | None => None
  end.
(* None: not a use that is promised to work *)
Definition sstep (sp : uspec) (o : uop) : option (uspec * ures) :=
  match o with
  | URecv fd m =>
      match lkept sp fd with
      | None => None
      | Some k =>
          match nth_error (linfo sp) k with
          | None => None
          | Some x =>
              match m with
              | Some ((_ :: _) as d, a) =>
                  if Z.of_nat (length d) <=? KB48 then
                    let n := length (linfo sp) in
                    Some ({| linfo := linfo sp ++ [{| ifd := fd; idata := d; isender := a; iflags := iflags x |}];
                             lkept := zupd (lkept sp) fd (Some n); luse := zupd (luse sp) fd (Some n); lended := lended sp |}, RPkt (Some n))
                  else None
              | Some ([], _) => None
              | None => Some ({| linfo := linfo sp; lkept := lkept sp; luse := zupd (luse sp) fd None; lended := lended sp |}, RPkt None)
              end
          end
      end
  | UMessage i => match usable sp i with Some x => Some (sp, RMsg (idata x)) | None => None end
  | UIp i => match usable sp i with Some x => Some (sp, RAddr (isender x)) | None => None end
  | USend i => match usable sp i with Some x => Some (sp, RAddr (isender x)) | None => None end
  | UFlags i => match usable sp i with Some x => Some (sp, RAddr (iflags x)) | None => None end
  | UEnd i =>
      match nth_error (linfo sp) i with
      | Some x =>
          if existsb (Nat.eqb i) (lended sp) || match lkept sp (ifd x) with Some j => (i =? j)%nat | None => false end then None
          else Some ({| linfo := linfo sp; lkept := lkept sp; luse := luse sp; lended := i :: lended sp |}, RNone)
      | None => None
      end
  end.
Fixpoint srun (sp : uspec) (l : list uop) : option (list ures) :=
  match l with
  | [] => Some []
  | o :: r => match sstep sp o with
              | None => None
              | Some (sp', x) => match srun sp' r with None => None | Some xs => Some (x :: xs) end
              end
  end.

(* ---- datagrams: proofs ---- *)

Lemma set_nth_length i x l : length (set_nth i x l) = length l.
Proof. revert i; induction l as [|y l IH]; intros [|i]; cbn; auto. Qed.
Lemma set_nth_eq i x l : (i < length l)%nat -> nth_error (set_nth i x l) i = Some x.
Proof. revert i; induction l as [|y l IH]; intros [|i] H; cbn in *; try lia; auto. apply IH; lia. Qed.
Lemma set_nth_ne i x l j : j <> i -> nth_error (set_nth i x l) j = nth_error l j.
Proof. revert i j; induction l as [|y l IH]; intros [|i] [|j] H; cbn; auto; try lia. Qed.

Lemma nth_error_app_Some {A} (l m : list A) i x : nth_error l i = Some x -> nth_error (l ++ m) i = Some x.
Proof. intros H. rewrite nth_error_app1; [exact H|]. apply nth_error_Some. congruence. Qed.
Lemma nth_error_Some_lt {A} (l : list A) i x : nth_error l i = Some x -> (i < length l)%nat.
Proof. intros H. apply nth_error_Some. congruence. Qed.

Record sinv (s : ust) (sp : uspec) : Prop := {
  v_end : forall i, In i (lended sp) -> (i < length (linfo sp))%nat;
  v_len : length (pkts s) = length (linfo sp);
  v_kept : forall fd i, lkept sp fd = Some i -> dpkt s fd = Some i /\ ~ In i (lended sp) /\ exists x, nth_error (linfo sp) i = Some x /\ ifd x = fd;
  v_pkt : forall i x, nth_error (linfo sp) i = Some x -> exists p, nth_error (pkts s) i = Some p /\ psock p = ifd x /\ pflags p = iflags x /\
            palive p = negb (existsb (Nat.eqb i) (lended sp));
  v_use : forall fd i, luse sp fd = Some i -> lkept sp fd = Some i /\ exists x p, nth_error (linfo sp) i = Some x /\ nth_error (pkts s) i = Some p /\
            pmsg p = idata x /\ paddr p = AOwn (isender x) /\ (pip p = None \/ pip p = Some (isender x)) /\ daddr s fd = isender x }.

Lemma existsb_in i l : existsb (Nat.eqb i) l = true <-> In i l.
Proof.
  rewrite existsb_exists. split.
  - intros (x & I & E). apply Nat.eqb_eq in E. subst. exact I.
  - intros I. exists i. split; [exact I | apply Nat.eqb_refl].
Qed.
Lemma existsb_notin i l : ~ In i l -> existsb (Nat.eqb i) l = false.
Proof. intros H. apply not_true_iff_false. rewrite existsb_in. exact H. Qed.

Lemma zupd_same {A} (f : Z -> A) k v : zupd f k v k = v.
Proof. unfold zupd. rewrite Z.eqb_refl. reflexivity. Qed.
Lemma zupd_other {A} (f : Z -> A) k v x : x <> k -> zupd f k v x = f x.
Proof. unfold zupd. intros H. rewrite (proj2 (Z.eqb_neq x k) H). reflexivity. Qed.

Lemma inv_open s sp fd flags a : sinv s sp -> sinv (udp_open s fd flags a) (sopen sp fd flags a).
Proof.
  intros [LE VL VK VP VU]. constructor; cbn [udp_open sopen pkts linfo dpkt daddr lkept luse lended].
  - intros i I. rewrite app_length. apply LE in I. lia.
  - rewrite !app_length. cbn. lia.
  - intros fd' i. unfold zupd. destruct (fd' =? fd) eqn:E.
    + intros [= <-]. split; [rewrite VL; reflexivity|]. split; [intros I; apply LE in I; lia|].
      eexists. rewrite nth_error_app2 by lia. rewrite Nat.sub_diag. split; [reflexivity|]. cbn. lia.
    + intros K. destruct (VK _ _ K) as (A & B & x & C & D). split; [exact A|]. split; [exact B|]. exists x.
      split; [|exact D]. apply nth_error_app_Some. exact C.
  - intros i x N. destruct (Nat.eq_dec i (length (linfo sp))) as [-> | NE].
    + rewrite nth_error_app2 in N by lia. rewrite Nat.sub_diag in N. injection N as <-. eexists.
      rewrite <- VL, nth_error_app2 by lia. rewrite Nat.sub_diag. split; [reflexivity|]. split; [reflexivity|]. split; [reflexivity|].
      cbn. rewrite existsb_notin; [reflexivity|]. intros I. apply LE in I. lia.
    + assert (LT : (i < length (linfo sp))%nat).
      { apply (nth_error_Some_lt _ _ _) in N. rewrite app_length in N. cbn in N. lia. }
      rewrite nth_error_app1 in N by exact LT. destruct (VP _ _ N) as (p & A & B). exists p. split; [apply nth_error_app_Some; exact A | exact B].
  - intros fd' i. unfold zupd. destruct (fd' =? fd); [discriminate|]. intros U. destruct (VU _ _ U) as (K & x & p & A & B & C).
    split; [exact K|]. exists x, p. split; [apply nth_error_app_Some; exact A|]. split; [apply nth_error_app_Some; exact B | exact C].
Qed.

Lemma sinv_start : sinv ust0 {| linfo := []; lkept := fun _ => None; luse := fun _ => None; lended := [] |}.
Proof. constructor; cbn; try tauto; try discriminate; auto. intros [|i] x; discriminate. Qed.

Lemma get_live s sp i x : sinv s sp -> nth_error (linfo sp) i = Some x -> ~ In i (lended sp) ->
  exists p, get s i = Ok p /\ nth_error (pkts s) i = Some p /\ psock p = ifd x /\ pflags p = iflags x /\ palive p = true.
Proof.
  intros V N E. destruct (v_pkt _ _ V _ _ N) as (p & A & B & C & D). rewrite existsb_notin in D by exact E. cbn in D.
  exists p. unfold get. rewrite A, D. auto 6.
Qed.

Lemma usable_luse sp i x : usable sp i = Some x -> nth_error (linfo sp) i = Some x /\ luse sp (ifd x) = Some i.
Proof.
  unfold usable. destruct (nth_error (linfo sp) i) as [y|] eqn:N; [|discriminate]. destruct (luse sp (ifd y)) as [j|] eqn:U; [|discriminate].
  destruct (i =? j)%nat eqn:E; [|discriminate]. intros [= ->]. apply Nat.eqb_eq in E. subst j. auto.
Qed.

Lemma usable_get s sp i x : sinv s sp -> usable sp i = Some x ->
  exists p, get s i = Ok p /\ nth_error (pkts s) i = Some p /\ psock p = ifd x /\ pflags p = iflags x /\ palive p = true /\
    pmsg p = idata x /\ paddr p = AOwn (isender x) /\ (pip p = None \/ pip p = Some (isender x)) /\ daddr s (ifd x) = isender x.
Proof.
  intros V U. destruct (usable_luse _ _ _ U) as [N L]. destruct (v_use _ _ V _ _ L) as (K & y & p & NY & NP & M & A & I & D).
  destruct (v_kept _ _ V _ _ K) as (_ & E & _). destruct (get_live _ _ _ _ V N E) as (q & G & NQ & S1 & S2 & S3).
  assert (y = x) by congruence. assert (q = p) by congruence. subst y q. exists p. auto 12.
Qed.

Lemma put_inv s sp i x p p' : sinv s sp -> usable sp i = Some x -> nth_error (pkts s) i = Some p ->
  psock p' = psock p -> pflags p' = pflags p -> pmsg p' = pmsg p -> paddr p' = paddr p -> palive p' = palive p ->
  (pip p' = pip p \/ pip p' = Some (isender x)) -> sinv (put s i p') sp.
Proof.
  intros V U NP E1 E2 E3 E4 E5 E6. destruct (usable_luse _ _ _ U) as [N L]. destruct V as [LE VL VK VP VU].
  assert (LT : (i < length (pkts s))%nat) by (eapply nth_error_Some_lt; exact NP).
  constructor; cbn [put pkts dpkt daddr]; auto.
  - rewrite set_nth_length. exact VL.
  - intros j y NJ. destruct (VP _ _ NJ) as (q & A & B & C & D). destruct (Nat.eq_dec j i) as [-> | NE].
    + exists p'. rewrite set_nth_eq by exact LT. assert (q = p) by congruence. subst q. rewrite E1, E2, E5. auto.
    + exists q. rewrite set_nth_ne by exact NE. auto.
  - intros fd j UJ. destruct (VU _ _ UJ) as (K & y & q & NY & NQ & M & A & I & D). split; [exact K|]. exists y.
    destruct (Nat.eq_dec j i) as [-> | NE].
    + exists p'. rewrite set_nth_eq by exact LT. assert (q = p) by congruence. subst q. assert (y = x) by congruence. subst y.
      rewrite E3, E4. split; [exact N|]. split; [reflexivity|]. split; [exact M|]. split; [exact A|]. split; [|exact D].
      destruct E6 as [-> | ->]; auto.
    + exists q. rewrite set_nth_ne by exact NE. auto 8.
Qed.

Lemma kept_get s sp fd k : sinv s sp -> lkept sp fd = Some k -> exists x p, nth_error (linfo sp) k = Some x /\ ifd x = fd /\ ~ In k (lended sp) /\
  kept s fd = Ok (k, p) /\ nth_error (pkts s) k = Some p /\ psock p = fd /\ pflags p = iflags x /\ palive p = true.
Proof.
  intros V K. destruct (v_kept _ _ V _ _ K) as (D & E & x & N & F). destruct (get_live _ _ _ _ V N E) as (p & G & NP & S1 & S2 & S3).
  exists x, p. unfold kept. rewrite D, G. cbn [bind]. subst fd. auto 12.
Qed.

(* receiving: the packet kept is touched, and maybe a new one is added *)
Lemma recv_inv s sp fd k x p : sinv s sp -> lkept sp fd = Some k -> nth_error (linfo sp) k = Some x -> nth_error (pkts s) k = Some p -> forall p' a,
  psock p' = psock p -> pflags p' = pflags p -> palive p' = palive p ->
  sinv {| dpkt := dpkt s; daddr := zupd (daddr s) fd a; pkts := set_nth k p' (pkts s) |}
       {| linfo := linfo sp; lkept := lkept sp; luse := zupd (luse sp) fd None; lended := lended sp |}.
Proof.
  intros V K NX NP p' a E1 E2 E3. assert (LT : (k < length (pkts s))%nat) by (eapply nth_error_Some_lt; exact NP).
  destruct V as [LE VL VK VP VU]. constructor; cbn [dpkt daddr pkts linfo lkept luse lended]; auto.
  - rewrite set_nth_length. exact VL.
  - intros j y NJ. destruct (VP _ _ NJ) as (q & A & B & C & D). destruct (Nat.eq_dec j k) as [-> | NE].
    + exists p'. rewrite set_nth_eq by exact LT. assert (q = p) by congruence. subst q. rewrite E1, E2, E3. auto.
    + exists q. rewrite set_nth_ne by exact NE. auto.
  - intros fd' j. unfold zupd. destruct (fd' =? fd) eqn:E; [discriminate|]. intros U. destruct (VU _ _ U) as (KJ & y & q & NY & NQ & R).
    split; [exact KJ|]. exists y, q. split; [exact NY|]. split; [|exact R]. rewrite set_nth_ne; [exact NQ|].
    intros ->. destruct (VK _ _ KJ) as (_ & _ & z & Nz & Fz). destruct (VK _ _ K) as (_ & _ & w & Nw & Fw). assert (z = w) by congruence. subst. lia.
Qed.

Lemma zupd_id {A} (f : Z -> A) k x : zupd f k (f k) x = f x.
Proof. unfold zupd. destruct (x =? k) eqn:E; [|reflexivity]. replace x with k by lia. reflexivity. Qed.

Lemma step_ok s sp o sp' r : sinv s sp -> sstep sp o = Some (sp', r) -> exists s', ustep s o = Ok (s', r) /\ sinv s' sp'.
Proof.
  intros V H. destruct o as [fd m | i | i | i | i | i]; cbn [sstep ustep] in *.
  - destruct (lkept sp fd) as [k|] eqn:K; [|discriminate H]. destruct (kept_get _ _ _ _ V K) as (x & p & NX & FX & NE & G & NP & P1 & P2 & P3).
    rewrite NX in H. unfold udp_recv. rewrite G. cbn [bind].
    set (p' := {| psock := psock p; pflags := pflags p; pmsg := pmsg p; pset := pset p; paddr := AShared; pip := pip p; palive := true |}).
    assert (RI : forall a, sinv {| dpkt := dpkt s; daddr := zupd (daddr s) fd a; pkts := set_nth k p' (pkts s) |}
       {| linfo := linfo sp; lkept := lkept sp; luse := zupd (luse sp) fd None; lended := lended sp |}).
    { intros a. apply (recv_inv s sp fd k x p V K NX NP p' a); cbn; auto. }
    destruct m as [[[|c d] a]|]; [discriminate H | |].
    + destruct (Z.of_nat (length (c :: d)) <=? KB48) eqn:LD; [|discriminate H]. injection H as <- <-. unfold cut48. rewrite LD.
      cbn [bind fst snd]. rewrite (v_len _ _ V). eexists. split; [reflexivity|].
      pose proof (inv_open _ _ fd (iflags x) a (RI a)) as W. cbn [udp_open sopen dpkt daddr pkts linfo lkept luse lended] in W.
      destruct W as [LE VL VK VP VU]. cbn [udp_open sopen dpkt daddr pkts linfo lkept luse lended] in LE, VL, VK, VP, VU.
      assert (LP : length (set_nth k p' (pkts s)) = length (linfo sp)) by (rewrite set_nth_length; apply (v_len _ _ V)).
      rewrite LP in VK. constructor; cbn [dpkt daddr pkts linfo lkept luse lended].
      * intros j I. rewrite app_length. cbn [length]. specialize (LE j I). rewrite app_length in LE. cbn [length] in LE. exact LE.
      * rewrite !app_length, LP. reflexivity.
      * intros fd' j KJ. destruct (VK _ _ KJ) as (A & B & y & C & D). split; [|split; [exact B|]].
        -- unfold zupd in *. destruct (fd' =? fd); exact A.
        -- destruct (Nat.eq_dec j (length (linfo sp))) as [-> | NJ].
           ++ eexists. rewrite nth_error_app2 by lia. rewrite Nat.sub_diag. split; [reflexivity|]. cbn [ifd].
              rewrite nth_error_app2 in C by lia. rewrite Nat.sub_diag in C. injection C as <-. exact D.
           ++ exists y. split; [|exact D]. pose proof (nth_error_Some_lt _ _ _ C) as LT. rewrite app_length in LT. cbn in LT.
              rewrite nth_error_app1 in * by lia. exact C.
      * intros j y NJ. pose proof (nth_error_Some_lt _ _ _ NJ) as LT. rewrite app_length in LT. cbn in LT.
        destruct (Nat.eq_dec j (length (linfo sp))) as [-> | NE2].
        -- rewrite nth_error_app2 in NJ by lia. rewrite Nat.sub_diag in NJ. injection NJ as <-. eexists. rewrite nth_error_app2 by lia. rewrite LP, Nat.sub_diag.
           split; [reflexivity|]. cbn. split; [reflexivity|]. split; [exact P2|]. rewrite existsb_notin; [reflexivity|].
           intros I. pose proof (v_end _ _ V _ I). lia.
        -- rewrite nth_error_app1 in NJ by lia. destruct (VP j y) as (q & A & B); [rewrite nth_error_app1 by lia; exact NJ|].
           exists q. rewrite nth_error_app1 in * by lia. auto.
      * intros fd' j. unfold zupd in *. destruct (fd' =? fd) eqn:E.
        -- intros [= <-]. split; [reflexivity|]. eexists. eexists. rewrite nth_error_app2 by lia. rewrite Nat.sub_diag. split; [reflexivity|].
           rewrite nth_error_app2 by lia. rewrite LP, Nat.sub_diag. split; [reflexivity|]. cbn. auto.
        -- intros U. destruct (VU fd' j) as (KJ & y & q & A & B & C).
           ++ rewrite E. exact U.
           ++ rewrite E in KJ. split; [exact KJ|]. rewrite E in C. exists y, q.
              assert (LT : (j < length (linfo sp))%nat).
              { destruct (v_kept _ _ V _ _ KJ) as (_ & _ & z & Nz & _). eapply nth_error_Some_lt; exact Nz. }
              rewrite nth_error_app1 in A by lia. rewrite nth_error_app1 in B by lia. rewrite !nth_error_app1 by lia. auto.
    + injection H as <- <-. cbn [bind fst snd]. eexists. split; [reflexivity|].
      pose proof (RI (daddr s fd)) as [LE VL VK VP VU]. unfold put. constructor; cbn [dpkt daddr pkts linfo lkept luse lended] in *; auto.
      intros fd' j U. destruct (VU _ _ U) as (A & y & q & B & C & D & E & F & W). rewrite zupd_id in W. split; [exact A|]. exists y, q. auto 8.
  - destruct (usable sp i) as [x|] eqn:U; [|discriminate H]. injection H as <- <-.
    destruct (usable_get _ _ _ _ V U) as (p & G & NP & P1 & P2 & P3 & P4 & P5 & P6 & P7). unfold udp_message. rewrite G. cbn [bind].
    destruct (pset p).
    + rewrite P5. cbn [bind fst snd]. rewrite P4. eexists. split; [reflexivity|]. apply (put_inv s sp i x p); cbn; auto.
    + cbn [bind fst snd]. rewrite P4. eauto.
  - destruct (usable sp i) as [x|] eqn:U; [|discriminate H]. injection H as <- <-.
    destruct (usable_get _ _ _ _ V U) as (p & G & NP & P1 & P2 & P3 & P4 & P5 & P6 & P7). unfold udp_ip. rewrite G. cbn [bind].
    destruct P6 as [P6 | P6]; rewrite P6.
    + rewrite P5. cbn [bind fst snd]. eexists. split; [reflexivity|]. apply (put_inv s sp i x p); cbn; auto.
    + cbn [bind fst snd]. eauto.
  - destruct (usable sp i) as [x|] eqn:U; [|discriminate H]. injection H as <- <-.
    destruct (usable_get _ _ _ _ V U) as (p & G & NP & P1 & P2 & P3 & P4 & P5 & P6 & P7). unfold udp_send. rewrite G. cbn [bind].
    rewrite P1, P7. eauto.
  - destruct (usable sp i) as [x|] eqn:U; [|discriminate H]. injection H as <- <-.
    destruct (usable_get _ _ _ _ V U) as (p & G & NP & P1 & P2 & P3 & P4 & P5 & P6 & P7). rewrite G. cbn [bind]. rewrite P2. eauto.
  - destruct (nth_error (linfo sp) i) as [x|] eqn:N; [|discriminate H].
    destruct (existsb (Nat.eqb i) (lended sp)) eqn:E; [discriminate H|]. cbn [orb] in H.
    destruct (match lkept sp (ifd x) with Some j => (i =? j)%nat | None => false end) eqn:K; [discriminate H|]. injection H as <- <-.
    assert (NE : ~ In i (lended sp)) by (rewrite <- existsb_in; congruence).
    destruct (get_live _ _ _ _ V N NE) as (p & G & NP & P1 & P2 & P3). unfold udp_end. rewrite G. cbn [bind]. eexists. split; [reflexivity|].
    assert (LT : (i < length (pkts s))%nat) by (eapply nth_error_Some_lt; exact NP).
    assert (KI : forall fd j, lkept sp fd = Some j -> j <> i).
    { intros fd j KJ ->. destruct (v_kept _ _ V _ _ KJ) as (_ & _ & y & NY & FY). assert (y = x) by congruence. subst y. rewrite FY, KJ, Nat.eqb_refl in K. discriminate K. }
    destruct V as [LE VL VK VP VU]. constructor; cbn [put dpkt daddr pkts linfo lkept luse lended].
    + intros j [<- | I]; [rewrite <- VL; exact LT | auto].
    + rewrite set_nth_length. exact VL.
    + intros fd j KJ. destruct (VK _ _ KJ) as (A & B & C). split; [exact A|]. split; [|exact C]. intros [<- | I]; [apply (KI _ _ KJ eq_refl) | tauto].
    + intros j y NJ. destruct (VP _ _ NJ) as (q & A & B & C & D). destruct (Nat.eq_dec j i) as [-> | NJI].
      * eexists. rewrite set_nth_eq by exact LT. split; [reflexivity|]. assert (q = p) by congruence. subst q. cbn. rewrite Nat.eqb_refl. auto.
      * exists q. rewrite set_nth_ne by exact NJI. cbn [existsb]. replace (j =? i)%nat with false by (symmetry; apply Nat.eqb_neq; exact NJI). auto.
    + intros fd j U. destruct (VU _ _ U) as (KJ & y & q & A & B & C). split; [exact KJ|]. exists y, q. rewrite set_nth_ne by (apply (KI _ _ KJ)). auto.
Qed.

Lemma run_ok l : forall s sp rs, sinv s sp -> srun sp l = Some rs -> exists s', urun s l = Ok (s', rs).
Proof.
  induction l as [|o l IH]; intros s sp rs V H; cbn [srun urun] in *; [injection H as <-; eauto|].
  destruct (sstep sp o) as [[sp' x]|] eqn:E; [|discriminate H]. destruct (step_ok _ _ _ _ _ V E) as (s' & A & B). rewrite A. cbn [bind fst snd].
  destruct (srun sp' l) as [xs|] eqn:R; [|discriminate H]. injection H as <-. destruct (IH _ _ _ B R) as (s2 & C). rewrite C. cbn [bind fst snd]. eauto.
Qed.

(* descriptors opened before *)
Fixpoint opened (l : list (Z * Z * Z)) : ust * uspec :=
  match l with
  | [] => (ust0, {| linfo := []; lkept := fun _ => None; luse := fun _ => None; lended := [] |})
  | (fd, flags, a) :: r => let x := opened r in (udp_open (fst x) fd flags a, sopen (snd x) fd flags a)
  end.
Lemma opened_inv l : sinv (fst (opened l)) (snd (opened l)).
Proof. induction l as [|[[fd fl] a] l IH]; cbn; [apply sinv_start | apply inv_open; exact IH]. Qed.

Lemma udp_uses fds l rs : srun (snd (opened fds)) l = Some rs -> exists s', urun (fst (opened fds)) l = Ok (s', rs).
Proof. apply run_ok. apply opened_inv. Qed.

Ltac ur := cbn; unfold zupd; rewrite ?Z.eqb_refl; cbn; unfold zupd; rewrite ?Z.eqb_refl; cbn.

(* an earlier packet after the next one: its sender is the next one's *)
Lemma udp_sender_changes fd fl a0 d1 a1 d2 a2 : (0 < length d1 <= 1000)%nat -> (0 < length d2 <= 1000)%nat ->
  exists s, urun (udp_open ust0 fd fl a0) [URecv fd (Some (d1, a1)); URecv fd (Some (d2, a2)); UIp 1; USend 1] =
    Ok (s, [RPkt (Some 1%nat); RPkt (Some 2%nat); RAddr a2; RAddr a2]).
Proof.
  intros L1 L2. destruct d1 as [|c1 d1]; [cbn in L1; lia|]. destruct d2 as [|c2 d2]; [cbn in L2; lia|].
  assert (C1 : cut48 (c1 :: d1) = c1 :: d1) by (unfold cut48; replace (Z.of_nat (length (c1 :: d1)) <=? KB48) with true by (unfold KB48; lia); reflexivity).
  assert (C2 : cut48 (c2 :: d2) = c2 :: d2) by (unfold cut48; replace (Z.of_nat (length (c2 :: d2)) <=? KB48) with true by (unfold KB48; lia); reflexivity).
  cbn [urun ustep]. unfold udp_recv, kept. ur. rewrite C1. ur. rewrite C2. ur. unfold udp_ip, udp_send. ur. eauto.
Qed.

(* a server that gives each packet to a handler: the next receive reads the packet freed with the handler *)
Lemma udp_server_ub fd fl a0 d a m : (0 < length d <= 1000)%nat -> urun (udp_open ust0 fd fl a0) [URecv fd (Some (d, a)); UEnd 1; URecv fd m] = UB.
Proof.
  intros L. destruct d as [|c d]; [cbn in L; lia|].
  assert (C : cut48 (c :: d) = c :: d) by (unfold cut48; replace (Z.of_nat (length (c :: d)) <=? KB48) with true by (unfold KB48; lia); reflexivity).
  cbn [urun ustep]. unfold udp_recv, kept. ur. rewrite C. ur. reflexivity.
Qed.

(* the message of an earlier packet *)
Lemma udp_message_ub fd fl a0 d1 a1 m : (0 < length d1 <= 1000)%nat ->
  urun (udp_open ust0 fd fl a0) [URecv fd (Some (d1, a1)); URecv fd m; UMessage 1] = UB.
Proof.
  intros L1. destruct d1 as [|c1 d1]; [cbn in L1; lia|].
  assert (C1 : cut48 (c1 :: d1) = c1 :: d1) by (unfold cut48; replace (Z.of_nat (length (c1 :: d1)) <=? KB48) with true by (unfold KB48; lia); reflexivity).
  cbn [urun ustep]. unfold udp_recv, kept. ur. rewrite C1. ur. destruct m as [[d2 a2]|]; [destruct (cut48 d2)|]; reflexivity.
Qed.

(* an empty datagram is no packet *)
Lemma kept_in s fd i p : kept s fd = Ok (i, p) -> dpkt s fd = Some i /\ nth_error (pkts s) i = Some p /\ palive p = true.
Proof.
  unfold kept, get. destruct (dpkt s fd) as [j|]; [|discriminate]. destruct (nth_error (pkts s) j) as [x|] eqn:N; [|discriminate].
  destruct (palive x) eqn:A; [|discriminate]. cbn. intros [= -> ->]. auto.
Qed.
Lemma udp_empty s fd a i p : kept s fd = Ok (i, p) -> exists s', udp_recv s fd (Some ([], a)) = Ok (s', None) /\ async_sendto s' fd = Ok (Some a).
Proof.
  intros K. unfold udp_recv. rewrite K. cbn. eexists. split; [reflexivity|]. apply kept_in in K as (D & N & A).
  unfold async_sendto, kept, get. cbn [dpkt pkts daddr]. rewrite D, set_nth_eq by (eapply nth_error_Some_lt; exact N). cbn. rewrite zupd_same. reflexivity.
Qed.
(* the next call of udp_message for packet i gives message and address to the end of the task *)
Definition gives (s : ust) (i : nat) : Prop := exists p, nth_error (pkts s) i = Some p /\ pset p = true.
Lemma message_once s i s' b : udp_message s i = Ok (s', b) -> ~ gives s' i.
Proof.
  unfold udp_message, get, gives. destruct (nth_error (pkts s) i) as [p|] eqn:N; [|discriminate]. destruct (palive p); [|discriminate]. cbn [bind].
  destruct (pset p) eqn:S.
  - destruct (paddr p); try discriminate; intros [= <- _] (q & Q & T); cbn [put pkts] in Q;
      rewrite set_nth_eq in Q by (eapply nth_error_Some_lt; exact N); injection Q as <-; discriminate T.
  - intros [= <- _] (q & Q & T). congruence.
Qed.

(* a datagram over 48 KiB is cut *)
Lemma udp_cut s fd a i p d : kept s fd = Ok (i, p) -> KB48 < Z.of_nat (length d) ->
  exists s' n q, udp_recv s fd (Some (d, a)) = Ok (s', Some n) /\ nth_error (pkts s') n = Some q /\ Z.of_nat (length (pmsg q)) = KB48.
Proof.
  intros K L. unfold udp_recv. rewrite K. cbn [bind]. assert (LC : Z.of_nat (length (cut48 d)) = KB48).
  { unfold cut48. replace (Z.of_nat (length d) <=? KB48) with false by lia. rewrite firstn_length. unfold KB48 in *. lia. }
  destruct (cut48 d) as [|c r] eqn:C; [discriminate LC|]. eexists. eexists. eexists. split; [reflexivity|]. cbn [pkts].
  rewrite nth_error_app2 by (rewrite set_nth_length; lia). rewrite set_nth_length, Nat.sub_diag. split; [reflexivity | exact LC].
Qed.

(* where async_sendto sends: to the address of udp_to, the sender of the last packet, or nowhere *)
Lemma sendto_to s fd a fl s' : udp_to s fd a fl = Ok s' -> async_sendto s' fd = Ok (Some a) /\ exists i p, kept s' fd = Ok (i, p) /\ pflags p = fl.
Proof.
  unfold udp_to, async_sendto, kept. destruct (dpkt s fd) as [i|] eqn:D; [|discriminate]. unfold get.
  destruct (nth_error (pkts s) i) as [p|] eqn:N; [|discriminate]. destruct (palive p); [|discriminate]. cbn [bind]. intros [= <-].
  cbn [dpkt pkts]. rewrite D. rewrite set_nth_eq by (eapply nth_error_Some_lt; exact N). cbn. rewrite zupd_same. split; [reflexivity|].
  eexists. eexists. split; [reflexivity|]. reflexivity.
Qed.
Lemma sendto_opened s fd fl a : async_sendto (udp_open s fd fl a) fd = Ok None.
Proof.
  unfold async_sendto, kept, get. cbn [udp_open dpkt pkts]. rewrite zupd_same, nth_error_app2 by lia. rewrite Nat.sub_diag. reflexivity.
Qed.
Lemma sendto_received s fd m s' n : udp_recv s fd m = Ok (s', Some n) -> exists d a, m = Some (d, a) /\ async_sendto s' fd = Ok (Some a).
Proof.
  unfold udp_recv. destruct (kept s fd) as [[i p] | | |]; try discriminate. cbn [bind]. destruct m as [[d a]|]; [|discriminate].
  destruct (cut48 d) as [|c r]; [discriminate|]. intros [= <- <-]. exists d, a. split; [reflexivity|].
  unfold async_sendto, kept, get. cbn [dpkt pkts]. rewrite zupd_same, nth_error_app2 by (rewrite set_nth_length; lia).
  rewrite set_nth_length, Nat.sub_diag. reflexivity.
Qed.

(* ---- kinds ---- *)

(* whether the descriptor is a local socket *)
Fixpoint kind_of (l : list kop) (fd : Z) : bool :=
  match l with
  | [] => false
  | KOpen f u :: r => if fd =? f then u else kind_of r fd
  | KAccept f _ :: r => if fd =? f then false else kind_of r fd
  | KUdsAccept f g :: r => if fd =? f then kind_of r g else kind_of r fd
  | KTaskEnd _ :: r => kind_of r fd
  end.
(* newest first; descriptors given by accept were no local sockets before, and the openers' tasks go on *)
Fixpoint kfine (l : list kop) : Prop :=
  match l with
  | [] => True
  | KAccept f _ :: r => kind_of r f = false /\ kfine r
  | KTaskEnd _ :: _ => False
  | _ :: r => kfine r
  end.

Lemma krun_snoc l o : krun (l ++ [o]) = kstep (krun l) o.
Proof. unfold krun. rewrite fold_left_app. reflexivity. Qed.

Lemma kinds l : kfine l -> kfreed (krun (rev l)) = [] /\ forall fd, (match kuds (krun (rev l)) fd with Some _ => true | None => false end) = kind_of l fd.
Proof.
  induction l as [|o l IH]; intros F; [split; reflexivity|]. cbn [rev]. rewrite krun_snoc.
  destruct o as [f u | f g | f g | r]; cbn [kfine kind_of] in *.
  - destruct (IH F) as [A B]. split; [destruct u; exact A|]. intros fd. destruct u; cbn [kstep kuds]; unfold zupd; destruct (fd =? f); auto.
  - destruct F as [F1 F2]. destruct (IH F2) as [A B]. split; [exact A|]. intros fd. cbn [kstep]. rewrite B. destruct (fd =? f) eqn:E; [|reflexivity].
    replace fd with f by lia. exact F1.
  - destruct (IH F) as [A B]. split; [exact A|]. intros fd. cbn [kstep kuds]. unfold zupd. destruct (fd =? f); apply B.
  - destruct F.
Qed.

Lemma kind_told l fd : kfine l -> socket_is_uds (krun (rev l)) fd = Ok ((0 <? fd) && kind_of l fd).
Proof.
  intros F. destruct (kinds l F) as [A B]. unfold socket_is_uds. rewrite A. rewrite <- (B fd).
  destruct (fd <=? 0) eqn:E; [replace (0 <? fd) with false by lia; reflexivity|]. replace (0 <? fd) with true by lia.
  destruct (kuds (krun (rev l)) fd); reflexivity.
Qed.

(* accepted on a number that was a local socket's *)
Lemma kind_stale fd lfd : 0 < fd -> socket_is_uds (krun [KOpen fd true; KAccept fd lfd]) fd = Ok true /\ kind_of [KAccept fd lfd; KOpen fd true] fd = false.
Proof.
  intros P. unfold krun, socket_is_uds. cbn. rewrite zupd_same, Z.eqb_refl. replace (fd <=? 0) with false by lia. auto.
Qed.
(* the opener's task is over *)
Lemma kind_ub fd : 0 < fd -> socket_is_uds (krun [KOpen fd true; KTaskEnd 0]) fd = UB.
Proof. intros P. unfold krun, socket_is_uds. cbn. rewrite zupd_same. replace (fd <=? 0) with false by lia. reflexivity. Qed.
