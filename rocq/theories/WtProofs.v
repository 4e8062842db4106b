(* Specification and proofs for WtModel: numbers and the objects behind them. *)
From Verif Require Import Base WtModel.

(* ---- specification ---- *)
(* Handle: a file or pipe of the kernel, with the name of a pipe that was made; Library: a descriptor of the C library *)
Inductive obj := Handle (h : Z) (pipe : bool) (name : option nat) | Library | Socket.
Record sp := { om : Z -> option obj; nm : nat -> option Z }.
Definition oset (m : Z -> option obj) (k : Z) (v : option obj) : Z -> option obj := fun x => if (x =? k)%Z then v else m x.
Definition nset (m : nat -> option Z) (k : nat) (v : option Z) : nat -> option Z := fun x => if x =? k then v else m x.
Definition give (x : sp) (n : Z) (o : obj) : option sp :=
  match om x n with Some _ => None | None => Some {| om := oset (om x) n (Some o); nm := nm x |} end.
(* The result and the calls that must be made.  None: a number was handed out that is in use, or the situation is
   outside the claim (a pipe made twice, a pipe that could not be accepted, a socket numbered like a standard stream). *)
Definition spec_step (x : sp) (o : op) (r : Z) : option (sp * Z * list act) :=
  match o with
  | Open _ _ _ h =>
    if (r =? -1)%Z then Some (x, r, [CloseH h])
    else match give x r (Handle h false None) with Some y => Some (y, r, []) | None => None end
  | Fifo _ _ h n =>
    if (r =? -1)%Z then Some (x, r, [])
    else match nm x n, give x r (Handle h true (Some n)) with
    | None, Some y => Some ({| om := om y; nm := nset (nm y) n (Some h) |}, r, [])
    | _, _ => None
    end
  | Pipe _ _ _ _ n =>
    match nm x n with
    | None => Some (x, -1, [])%Z
    | Some h => if (r =? -1)%Z then None
                else match give x r (Handle h true None) with Some y => Some (y, r, []) | None => None end
    end
  | Sock n => if (n <? 3)%Z then None else match give x n Socket with Some y => Some (y, n, []) | None => None end
  | Crt n => match give x n Library with Some y => Some (y, n, []) | None => None end
  | Read n => Some (x, 0%Z, [match om x n with Some (Handle h _ _) => ReadH h | Some Socket => Recv n | _ => ReadC n end])
  | Write n => Some (x, 0%Z, [match om x n with Some (Handle h _ _) => WriteH h | Some Socket => Send n | _ => WriteC n end])
  | Close fl dc n =>
    if (n =? -1)%Z then Some (x, 0%Z, [])
    else match om x n with
    | Some (Handle h pipe name) =>
      if pipe && negb (fl && dc) then Some (x, -1, [])%Z
      else Some ({| om := oset (om x) n None; nm := match name with Some k => nset (nm x) k None | None => nm x end |}, 0%Z, [CloseH h])
    | Some Socket => Some ({| om := oset (om x) n None; nm := nm x |}, 0%Z, [CloseS n])
    | _ => Some ({| om := oset (om x) n None; nm := nm x |}, 0%Z, [CloseC n])
    end
  end.
Fixpoint spec_run (x : sp) (l : list op) (rs : list Z) : option (sp * list (Z * list act)) :=
  match l, rs with
  | [], [] => Some (x, [])
  | o :: k, r :: rs' => match spec_step x o r with
                        | None => None
                        | Some (y, r', e) => match spec_run y k rs' with None => None | Some (z, es) => Some (z, (r', e) :: es) end
                        end
  | _, _ => None
  end.
(* the standard streams belong to the C library *)
Definition sp0 : sp := {| om := fun n => if (0 <=? n)%Z && (n <? 3)%Z then Some Library else None; nm := fun _ => None |}.
(* event handles are looked at separately *)
Definition calls (e : list act) : list act := filter (fun a => match a with EventH => false | _ => true end) e.
Definition writes (o : op) : bool := match o with Write _ => true | _ => false end.

(* ---- proofs ---- *)
Definition obj_of (e : ent) : option obj :=
  if ety e =? 0 then None else Some (Handle (eh e) (ety e =? FD_PIPE_ASYNC) (epath e)).
Definition slot_of (t : list ent) (p : Z) : option obj := match entry t p with Some e => obj_of e | None => None end.
Record agree (x : sp) (s : st) : Prop := {
  a_live : live s = true;
  a_slot : forall p h b n, om x p = Some (Handle h b n) <-> slot_of (tab s) p = Some (Handle h b n);
  a_sock : forall p, om x p = Some Socket <-> In p (socks s);
  a_three : forall p, In p (socks s) -> (3 <= p)%Z;
  a_types : forall e, In e (tab s) -> ety e = 0 \/ ety e = FD_FILE_ASYNC \/ ety e = FD_PIPE_ASYNC;
  a_path : forall e n, In e (tab s) -> ety e <> 0 -> epath e = Some n -> ety e = FD_PIPE_ASYNC /\ nm x n = Some (eh e);
  a_name : forall n h, nm x n = Some h -> exists e, In e (tab s) /\ ety e <> 0 /\ epath e = Some n;
  a_once : forall i j a b n, nth_error (tab s) i = Some a -> nth_error (tab s) j = Some b -> ety a <> 0 -> ety b <> 0 ->
    epath a = Some n -> epath b = Some n -> i = j;
}.

Lemma entry_in t p e : entry t p = Some e -> (0 <= p)%Z /\ nth_error t (Z.to_nat p) = Some e /\ Z.to_nat p < length t.
Proof.
  unfold entry. destruct (Z.ltb_spec p 0); [discriminate|]. intros E. repeat split; try assumption. apply nth_error_Some. congruence.
Qed.
Lemma entry_of t i e : nth_error t i = Some e -> entry t (Z.of_nat i) = Some e.
Proof. unfold entry. destruct (Z.ltb_spec (Z.of_nat i) 0); [lia|]. now rewrite Nat2Z.id. Qed.
Lemma entry_set t p e v q : entry t p = Some e -> entry (set_nth (Z.to_nat p) v t) q = if (q =? p)%Z then Some v else entry t q.
Proof.
  intros H. apply entry_in in H. destruct H as (P & N & L). unfold entry.
  destruct (Z.ltb_spec q 0); [destruct (Z.eqb_spec q p); [lia|reflexivity]|].
  destruct (Z.eqb_spec q p) as [->|]; [now apply set_nth_same|]. apply set_nth_other. lia.
Qed.
Lemma set_in {A} i (v : A) t x : In x (set_nth i v t) -> x = v \/ In x t.
Proof. revert i. induction t as [|a t IH]; intros [|i]; cbn; [auto..| |]; intros [H|H]; auto. destruct (IH i H); auto. Qed.
Lemma slot_grow t k p : slot_of (t ++ repeat ent0 k) p = slot_of t p.
Proof.
  unfold slot_of, entry. destruct (p <? 0)%Z; [reflexivity|]. destruct (Nat.lt_ge_cases (Z.to_nat p) (length t)) as [L|L].
  - now rewrite nth_error_app1.
  - rewrite nth_error_app2 by assumption. rewrite (proj2 (nth_error_None t (Z.to_nat p))) by assumption.
    destruct (nth_error (repeat ent0 k) (Z.to_nat p - length t)) as [e|] eqn:E; [|reflexivity].
    apply nth_error_In, repeat_spec in E. now subst e.
Qed.
Lemma grows_app f : forall a t t', grows f a t = Ok t' -> exists k, t' = t ++ repeat ent0 k.
Proof.
  induction f as [|f IH]; intros [a|] t t' H; cbn [grows] in H;
    try (injection H as <-; exists 0; symmetry; apply app_nil_r);
    (destruct (length t <=? a); [|injection H as <-; exists 0; symmetry; apply app_nil_r]); [discriminate|].
  apply IH in H. destruct H as (k & ->). exists (length t + k). now rewrite repeat_app, app_assoc.
Qed.
Lemma agree_grow x s k : agree x s -> agree x (with_tab s (tab s ++ repeat ent0 k)).
Proof.
  assert (I : forall e, In e (tab s ++ repeat ent0 k) -> In e (tab s) \/ e = ent0).
  { intros e H. apply in_app_or in H. destruct H as [H|H]; [auto|]. right. now apply repeat_spec in H. }
  assert (N : forall i e, nth_error (tab s ++ repeat ent0 k) i = Some e -> ety e <> 0 -> nth_error (tab s) i = Some e).
  { intros i e H E. destruct (Nat.lt_ge_cases i (length (tab s))) as [L|L]; [now rewrite nth_error_app1 in H|].
    rewrite nth_error_app2 in H by assumption. apply nth_error_In, repeat_spec in H. now subst e. }
  intros [L S O T Y P M U]. constructor; cbn [with_tab live tab socks]; auto.
  - intros. now rewrite slot_grow.
  - intros e H. destruct (I e H) as [H1| ->]; [auto|]. now left.
  - intros e n H Z E. destruct (I e H) as [H1| ->]; [auto|]. now contradiction Z.
  - intros n h H. destruct (M n h H) as (e & A & B & C). exists e. split; [|auto]. apply in_or_app. auto.
  - intros i j a b n A B Za Zb. apply (U i j a b n); auto.
Qed.

Lemma first_free_some t : forall k i, first_free t k = Some i -> k <= i /\ 0 < i /\ exists e, nth_error t (i - k) = Some e /\ ety e = 0.
Proof.
  induction t as [|e t IH]; intros k i H; cbn [first_free] in H; [discriminate|].
  destruct (0 <? k) eqn:K; cbn [andb] in H.
  - apply Nat.ltb_lt in K. destruct (Nat.eqb_spec (ety e) 0) as [Z|NZ].
    + injection H as <-. split; [lia|]. split; [lia|]. exists e. rewrite Nat.sub_diag. auto.
    + destruct (IH _ _ H) as (A & B & x & N & X). split; [lia|]. split; [lia|]. exists x. replace (i - k) with (S (i - S k)) by lia. auto.
  - destruct (IH _ _ H) as (A & B & x & N & X). split; [lia|]. split; [lia|]. exists x. replace (i - k) with (S (i - S k)) by lia. auto.
Qed.
Lemma pick_some t fd i : pick t fd = Some i -> exists e, entry t (Z.of_nat i) = Some e /\ ety e = 0 /\ 0 < i.
Proof.
  unfold pick. destruct (Z.ltb_spec 0 fd) as [F|F]; [|discriminate]. unfold free_in.
  destruct (entry t fd) as [e|] eqn:E; [destruct (Nat.eqb_spec (ety e) 0) as [Z|Z]|]; intros H.
  - injection H as <-. rewrite Z2Nat.id by lia. exists e. repeat split; [exact E|exact Z|lia].
  - apply first_free_some in H. destruct H as (_ & P & x & N & X). rewrite Nat.sub_0_r in N. exists x. rewrite (entry_of _ _ _ N). auto.
  - apply first_free_some in H. destruct H as (_ & P & x & N & X). rewrite Nat.sub_0_r in N. exists x. rewrite (entry_of _ _ _ N). auto.
Qed.

(* a free slot is taken *)
Lemma agree_take x s i ty h nmo : agree x s -> nth_error (tab s) i = Some (nth i (tab s) ent0) -> ety (nth i (tab s) ent0) = 0 ->
  (ty = FD_FILE_ASYNC \/ ty = FD_PIPE_ASYNC) -> om x (Z.of_nat i) = None ->
  (forall n, nmo = Some n -> ty = FD_PIPE_ASYNC /\ nm x n = None) ->
  agree {| om := oset (om x) (Z.of_nat i) (Some (Handle h (ty =? FD_PIPE_ASYNC) nmo)); nm := match nmo with Some n => nset (nm x) n (Some h) | None => nm x end |}
    (with_tab s (set_nth i {| ety := ty; eh := h; epath := nmo |} (tab s))).
Proof.
  set (v := {| ety := ty; eh := h; epath := nmo |}). intros [L S O T Y P M U] N F C E Q.
  assert (EN : entry (tab s) (Z.of_nat i) = Some (nth i (tab s) ent0)) by now apply entry_of.
  assert (IL : i < length (tab s)) by (apply nth_error_Some; congruence).
  assert (TZ : ety v <> 0) by (cbn; destruct C as [-> | ->]; discriminate).
  assert (IN : forall e, In e (tab s) -> ety e <> 0 -> In e (set_nth i v (tab s))).
  { intros e H Z. apply In_nth_error in H. destruct H as (j & J). apply (nth_error_In _ j). rewrite set_nth_other; [exact J|]. intros ->. congruence. }
  assert (IV : In v (set_nth i v (tab s))). { apply (nth_error_In _ i). now apply set_nth_same. }
  assert (SL : forall p, slot_of (set_nth i v (tab s)) p = if (p =? Z.of_nat i)%Z then obj_of v else slot_of (tab s) p).
  { intros p. unfold slot_of. pose proof (entry_set _ _ _ v p EN) as X. rewrite Nat2Z.id in X. rewrite X. now destruct (p =? Z.of_nat i)%Z. }
  constructor; cbn [with_tab live tab socks om nm]; auto.
  - intros p h' b n'. rewrite SL. unfold oset. destruct (Z.eqb_spec p (Z.of_nat i)); [|apply S].
    unfold obj_of. destruct (Nat.eqb_spec (ety v) 0); [contradiction|]. cbn [v ety eh epath]. reflexivity.
  - intros p. unfold oset. destruct (Z.eqb_spec p (Z.of_nat i)) as [->|]; [|apply O]. split; [discriminate|]. intros H. apply O in H. congruence.
  - intros e H. apply set_in in H. destruct H as [->|H]; [|auto]. cbn. destruct C; auto.
  - intros e n H Z EP. apply set_in in H. destruct H as [->|H].
    + cbn [v ety eh epath] in *. rewrite EP. destruct (Q n EP) as (A & _). split; [exact A|]. unfold nset. now rewrite Nat.eqb_refl.
    + destruct (P e n H Z EP) as (A & B). split; [exact A|]. destruct nmo as [k|]; [|exact B]. unfold nset. destruct (Nat.eqb_spec n k) as [->|]; [|exact B].
      destruct (Q k eq_refl). congruence.
  - intros n h' H. destruct nmo as [k|].
    + unfold nset in H. destruct (Nat.eqb_spec n k) as [->|]; [exists v; auto|]. destruct (M n h' H) as (e & A & B & D). exists e. auto.
    + destruct (M n h' H) as (e & A & B & D). exists e. auto.
  - intros j k a b n A B Za Zb Ea Eb.
    assert (NW : forall j0 e0, nth_error (set_nth i v (tab s)) j0 = Some e0 -> (j0 = i /\ e0 = v) \/ (j0 <> i /\ nth_error (tab s) j0 = Some e0)).
    { intros j0 e0 H. destruct (Nat.eq_dec i j0) as [<-|NE].
      - rewrite set_nth_same in H by assumption. left. split; congruence.
      - rewrite set_nth_other in H by assumption. auto. }
    assert (CONF : forall j0 e0, nth_error (tab s) j0 = Some e0 -> ety e0 <> 0 -> epath e0 = Some n -> epath v = Some n -> False).
    { intros j0 e0 H Z EP EV. cbn in EV. destruct (Q n EV) as (_ & B2). destruct (P e0 n (nth_error_In _ _ H) Z EP). congruence. }
    apply NW in A. apply NW in B. destruct A as [[-> ->]|[A1 A]], B as [[-> ->]|[B1 B]]; auto; [exfalso; eauto..|]. eauto.
Qed.
(* a used slot is given back *)
Lemma agree_drop x s p e : agree x s -> entry (tab s) p = Some e -> ety e <> 0 ->
  agree {| om := oset (om x) p None; nm := match epath e with Some n => nset (nm x) n None | None => nm x end |} (free_fd s p).
Proof.
  intros [L S O T Y P M U] EN NZ. unfold free_fd. rewrite EN. set (v := {| ety := 0; eh := eh e; epath := None |}).
  destruct (entry_in _ _ _ EN) as (P0 & N & LT).
  assert (SL : forall q, slot_of (set_nth (Z.to_nat p) v (tab s)) q = if (q =? p)%Z then None else slot_of (tab s) q).
  { intros q. unfold slot_of. rewrite (entry_set _ _ _ v q EN). now destruct (q =? p)%Z. }
  assert (NW : forall j0 e0, nth_error (set_nth (Z.to_nat p) v (tab s)) j0 = Some e0 -> ety e0 <> 0 -> j0 <> Z.to_nat p /\ nth_error (tab s) j0 = Some e0).
  { intros j0 e0 H Z. destruct (Nat.eq_dec (Z.to_nat p) j0) as [<-|NE].
    - rewrite set_nth_same in H by assumption. injection H as <-. now contradiction Z.
    - rewrite set_nth_other in H by assumption. auto. }
  assert (NH : forall h b n, om x p = Some Socket -> slot_of (tab s) p = Some (Handle h b n) -> False).
  { intros h b n A B. apply S in B. congruence. }
  constructor; cbn [with_tab live tab socks om nm]; auto.
  - intros q h b n. rewrite SL. unfold oset. destruct (q =? p)%Z; [|apply S]. split; discriminate.
  - intros q. unfold oset. destruct (Z.eqb_spec q p) as [->|]; [|apply O]. split; [discriminate|]. intros H. exfalso. apply O in H.
    apply (NH (eh e) (ety e =? FD_PIPE_ASYNC) (epath e) H). unfold slot_of. rewrite EN. unfold obj_of. destruct (Nat.eqb_spec (ety e) 0); [contradiction|reflexivity].
  - intros a H. apply set_in in H. destruct H as [->|H]; [now left|auto].
  - intros a n H Z EP. apply In_nth_error in H. destruct H as (j & J). destruct (NW _ _ J Z) as (NE & J').
    destruct (P a n (nth_error_In _ _ J') Z EP) as (A & B). split; [exact A|]. destruct (epath e) as [k|] eqn:EE; [|exact B].
    unfold nset. destruct (Nat.eqb_spec n k) as [->|]; [|exact B]. exfalso. apply NE. exact (U j (Z.to_nat p) a e k J' N Z NZ EP EE).
  - intros n h H. assert (HM : nm x n = Some h /\ epath e <> Some n).
    { destruct (epath e) as [k|]; [|split; [exact H|discriminate]]. unfold nset in H. destruct (Nat.eqb_spec n k); [discriminate|]. split; [exact H|congruence]. }
    destruct HM as (HM & NE). destruct (M n h HM) as (a & A & B & D). exists a. split; [|auto]. apply In_nth_error in A. destruct A as (j & J).
    apply (nth_error_In _ j). rewrite set_nth_other; [exact J|]. intros EJ. subst j. congruence.
  - intros i j a b n A B Za Zb Ea Eb. destruct (NW _ _ A Za) as (_ & A'). destruct (NW _ _ B Zb) as (_ & B'). eauto.
Qed.

Lemma calls_app a b : calls (a ++ b) = calls a ++ calls b.
Proof. unfold calls. apply filter_app. Qed.

Lemma new_fd_is f a s ty fd s' r e : new_fd f a s ty fd = Ok (s', r, e) -> live s = true /\ calls e = [] /\ exists k,
  (r = (-1)%Z /\ s' = with_tab s (tab s ++ repeat ent0 k)) \/
  exists i, r = Z.of_nat i /\ 0 < i /\ nth_error (tab s ++ repeat ent0 k) i = Some (nth i (tab s ++ repeat ent0 k) ent0) /\ ety (nth i (tab s ++ repeat ent0 k) ent0) = 0 /\
    s' = with_tab s (set_nth i {| ety := ty; eh := fd; epath := None |} (tab s ++ repeat ent0 k)).
Proof.
  unfold new_fd. destruct (live s) eqn:L; cbn [negb]; [|discriminate]. destruct ((fd <? 0)%Z || (fdn s <=? fd)%Z); [discriminate|].
  destruct (grows f a (tab s)) as [t| | |] eqn:G; cbn [bind]; try discriminate. apply grows_app in G. destruct G as (k & ->).
  destruct (pick _ fd) as [i|] eqn:PK; intros [= <- <- <-]; split; auto; split; auto; exists k; [right|left; auto].
  exists i. destruct (pick_some _ _ _ PK) as (x & E & Z & P). apply entry_in in E. destruct E as (_ & N & _). rewrite Nat2Z.id in N.
  rewrite (nth_error_nth _ _ ent0 N). auto.
Qed.

(* with_tab twice *)
Lemma with_tab_twice s a b : with_tab (with_tab s a) b = with_tab s b.
Proof. reflexivity. Qed.
Lemma give_some x n o y : give x n o = Some y -> om x n = None /\ y = {| om := oset (om x) n (Some o); nm := nm x |}.
Proof. unfold give. destruct (om x n); [discriminate|]. intros [= <-]. auto. Qed.

Lemma take_step x s k i ty h nmo : agree x s -> nth_error (tab s ++ repeat ent0 k) i = Some (nth i (tab s ++ repeat ent0 k) ent0) ->
  ety (nth i (tab s ++ repeat ent0 k) ent0) = 0 -> (ty = FD_FILE_ASYNC \/ ty = FD_PIPE_ASYNC) -> om x (Z.of_nat i) = None ->
  (forall n, nmo = Some n -> ty = FD_PIPE_ASYNC /\ nm x n = None) ->
  agree {| om := oset (om x) (Z.of_nat i) (Some (Handle h (ty =? FD_PIPE_ASYNC) nmo)); nm := match nmo with Some n => nset (nm x) n (Some h) | None => nm x end |}
    (with_tab s (set_nth i {| ety := ty; eh := h; epath := nmo |} (tab s ++ repeat ent0 k))).
Proof.
  intros A N Z C E Q. apply (agree_grow x s k) in A. pose proof (agree_take x _ i ty h nmo A) as T.
  cbn [with_tab tab] in T. exact (T N Z C E Q).
Qed.

(* the slot taken and given back at once: nothing is seen *)
Lemma agree_back x s k i v : agree x s -> nth_error (tab s ++ repeat ent0 k) i = Some (nth i (tab s ++ repeat ent0 k) ent0) ->
  ety (nth i (tab s ++ repeat ent0 k) ent0) = 0 -> ety v <> 0 -> epath v = None ->
  agree x (free_fd (with_tab s (set_nth i v (tab s ++ repeat ent0 k))) (Z.of_nat i)).
Proof.
  intros A N Z V E. apply (agree_grow x s k) in A. set (t := tab s ++ repeat ent0 k) in *.
  assert (IL : i < length t) by (apply nth_error_Some; congruence).
  unfold free_fd. cbn [with_tab tab]. rewrite (entry_of _ i v) by now apply set_nth_same. rewrite Nat2Z.id.
  set (w := {| ety := 0; eh := eh v; epath := None |}).
  assert (SS : set_nth i w (set_nth i v t) = set_nth i w t).
  { apply nth_error_ext. intros j. destruct (Nat.eq_dec i j) as [<-|NE]; [|now rewrite !set_nth_other by assumption].
    rewrite !set_nth_same; auto. now rewrite set_nth_length. }
  rewrite SS. destruct A as [L S O T Y P M U]. cbn [with_tab live tab socks] in *. fold t in S, Y, P, M, U.
  assert (NW : forall j e, nth_error (set_nth i w t) j = Some e -> ety e <> 0 -> nth_error t j = Some e).
  { intros j e H NZ. destruct (Nat.eq_dec i j) as [<-|NE]; [|now rewrite set_nth_other in H by assumption].
    rewrite set_nth_same in H by assumption. injection H as <-. now contradiction NZ. }
  constructor; cbn [with_tab live tab socks]; auto.
  - intros p h b n. rewrite S. unfold slot_of.
    assert (EN : entry t (Z.of_nat i) = Some (nth i t ent0)) by now apply entry_of.
    pose proof (entry_set _ _ _ w p EN) as X. rewrite Nat2Z.id in X. rewrite X. destruct (Z.eqb_spec p (Z.of_nat i)) as [->|]; [|reflexivity].
    rewrite EN. unfold obj_of. rewrite Z. cbn. reflexivity.
  - intros e H. apply set_in in H. destruct H as [->|H]; [now left|auto].
  - intros e n H NZ EP. apply In_nth_error in H. destruct H as (j & J). apply NW in J; auto. apply nth_error_In in J. auto.
  - intros n h H. destruct (M n h H) as (e & B & C & D). exists e. split; [|auto]. apply In_nth_error in B. destruct B as (j & J).
    apply (nth_error_In _ j). rewrite set_nth_other; [exact J|]. intros EJ. subst j. congruence.
  - intros j k0 a b n A B Za Zb. apply NW in A, B; auto. eauto.
Qed.

Lemma by_path_is t n : forall k i, by_path t k n = Some i -> k <= i /\ exists e, nth_error t (i - k) = Some e /\ ety e <> 0 /\ epath e = Some n.
Proof.
  induction t as [|e t IH]; intros k i H; cbn [by_path] in H; [discriminate|].
  destruct (negb (ety e =? 0) && _) eqn:B.
  - injection H as <-. split; [lia|]. exists e. rewrite Nat.sub_diag. apply andb_true_iff in B. destruct B as [B1 B2].
    destruct (epath e) as [y|]; [|discriminate]. apply Nat.eqb_eq in B2. subst y. apply negb_true_iff, Nat.eqb_neq in B1. auto.
  - destruct (IH _ _ H) as (A & x & N & X). split; [lia|]. exists x. replace (i - k) with (S (i - S k)) by lia. auto.
Qed.
Lemma by_path_none t n : forall k, by_path t k n = None -> forall e, In e t -> ety e <> 0 -> epath e <> Some n.
Proof.
  induction t as [|e t IH]; intros k H x I NZ; [contradiction|]. cbn [by_path] in H.
  destruct (negb (ety e =? 0) && _) eqn:B; [discriminate|]. destruct I as [->|I]; [|eauto].
  intros E. rewrite E, Nat.eqb_refl, andb_true_r in B. apply negb_false_iff, Nat.eqb_eq in B. contradiction.
Qed.

Lemma slot_at x s p : agree x s -> forall h b n, om x p = Some (Handle h b n) -> exists e, entry (tab s) p = Some e /\ ety e <> 0 /\ eh e = h /\
  (ety e =? FD_PIPE_ASYNC) = b /\ epath e = n /\ ((ety e =? FD_FILE_ASYNC) || (ety e =? FD_PIPE_ASYNC) = true).
Proof.
  intros A h b n H. pose proof (proj1 (a_slot _ _ A p h b n) H) as Q. unfold slot_of in Q. destruct (entry (tab s) p) as [e|] eqn:E; [|discriminate].
  unfold obj_of in Q. destruct (Nat.eqb_spec (ety e) 0) as [Z|Z]; [discriminate|]. injection Q as <- <- <-. exists e. repeat split; auto.
  destruct (entry_in _ _ _ E) as (_ & N & _). apply nth_error_In in N. destruct (a_types _ _ A _ N) as [T|[T|T]]; [contradiction|rewrite T; reflexivity..].
Qed.
Lemma no_slot x s p : agree x s -> (forall h b n, om x p <> Some (Handle h b n)) -> valid_in (tab s) p = false.
Proof.
  intros A H. unfold valid_in. destruct (entry (tab s) p) as [e|] eqn:E; [|reflexivity]. destruct (Nat.eqb_spec (ety e) 0) as [Z|Z]; [reflexivity|].
  exfalso. apply (H (eh e) (ety e =? FD_PIPE_ASYNC) (epath e)). apply (a_slot _ _ A). unfold slot_of. rewrite E. unfold obj_of.
  destruct (Nat.eqb_spec (ety e) 0); [contradiction|reflexivity].
Qed.
Lemma socket_is x s p : agree x s -> is_socket s p = true <-> om x p = Some Socket.
Proof.
  intros A. rewrite (a_sock _ _ A). unfold is_socket. split.
  - destruct (p <? 3)%Z; [discriminate|]. intros H. apply existsb_exists in H. destruct H as (y & I & E). apply Z.eqb_eq in E. now subst y.
  - intros I. pose proof (a_three _ _ A p I). destruct (Z.ltb_spec p 3); [lia|]. apply existsb_exists. exists p. split; [exact I|apply Z.eqb_refl].
Qed.
Lemma valid_fd_is x s p : agree x s -> valid_fd s p = Ok (valid_in (tab s) p).
Proof. intros A. unfold valid_fd, valid_in. destruct (entry (tab s) p); [|reflexivity]. now rewrite (a_live _ _ A). Qed.

Lemma read_is x s p e : agree x s -> os_read s p = Ok e ->
  e = [match om x p with Some (Handle h _ _) => ReadH h | Some Socket => Recv p | _ => ReadC p end].
Proof.
  intros A. unfold os_read, not_slot, type_at. rewrite (a_live _ _ A). cbn [negb].
  pose proof (socket_is x s p A) as SK. pose proof (slot_at x s p A) as SL. pose proof (no_slot x s p A) as NS.
  destruct (om x p) as [[h b n| |]|] eqn:M.
  - destruct (SL h b n eq_refl) as (v & E & Z & <- & B & C & D). rewrite E. destruct (is_socket s p); [now apply proj1 in SK; specialize (SK eq_refl)|].
    rewrite (valid_fd_is _ _ _ A). unfold valid_in. rewrite E. destruct (Nat.eqb_spec (ety v) 0); [contradiction|]. cbn [negb orb andb].
    destruct (loops s); cbn [negb bind]; rewrite ?andb_false_r; cbn [negb bind]; rewrite D; try (now intros [= <-]).
    now destruct ((ety v =? 0) || false); cbn; intros [= <-].
  - rewrite (valid_fd_is _ _ _ A). specialize (NS ltac:(congruence)). rewrite NS.
    destruct (is_socket s p); [apply proj1 in SK; specialize (SK eq_refl); discriminate|]. rewrite ?andb_false_r, ?orb_false_r.
    destruct (loops s); cbn [negb bind]; [|now intros [= <-]].
    unfold valid_in in NS. destruct (entry (tab s) p) as [v|]; cbn [bind]; [|discriminate]. apply negb_false_iff in NS. rewrite NS.
    cbn [orb andb negb bind]. now intros [= <-].
  - rewrite (proj2 SK eq_refl). destruct (loops s); cbn [negb bind]; [|now intros [= <-]].
    destruct (entry (tab s) p) as [v|]; cbn [bind]; [|discriminate]. rewrite orb_true_r. cbn. now intros [= <-].
  - rewrite (valid_fd_is _ _ _ A). specialize (NS ltac:(congruence)). rewrite NS.
    destruct (is_socket s p); [apply proj1 in SK; specialize (SK eq_refl); discriminate|]. rewrite ?andb_false_r, ?orb_false_r.
    destruct (loops s); cbn [negb bind]; [|now intros [= <-]].
    unfold valid_in in NS. destruct (entry (tab s) p) as [v|]; cbn [bind]; [|discriminate]. apply negb_false_iff in NS. rewrite NS.
    cbn [orb andb negb bind]. now intros [= <-].
Qed.
Lemma write_is x s p e : agree x s -> loops s = true -> os_write s p = Ok e ->
  e = [match om x p with Some (Handle h _ _) => WriteH h | Some Socket => Send p | _ => WriteC p end].
Proof.
  intros A LP. unfold os_write, not_slot, type_at. rewrite (a_live _ _ A), LP. cbn [negb].
  pose proof (socket_is x s p A) as SK. pose proof (slot_at x s p A) as SL. pose proof (no_slot x s p A) as NS.
  destruct (om x p) as [[h b n| |]|] eqn:M.
  - destruct (SL h b n eq_refl) as (v & E & Z & <- & B & C & D). rewrite E. destruct (is_socket s p); [now apply proj1 in SK; specialize (SK eq_refl)|].
    destruct (Nat.eqb_spec (ety v) 0) as [Z0|_]; [contradiction|]. cbn [negb orb andb bind]. destruct (Nat.eqb_spec (ety v) 0); [contradiction|]. cbn [orb]. rewrite D. now intros [= <-].
  - specialize (NS ltac:(congruence)). destruct (is_socket s p); [apply proj1 in SK; specialize (SK eq_refl); discriminate|].
    unfold valid_in in NS. destruct (entry (tab s) p) as [v|]; cbn [bind]; [|discriminate]. apply negb_false_iff in NS. rewrite NS. cbn. now intros [= <-].
  - rewrite (proj2 SK eq_refl). destruct (entry (tab s) p) as [v|]; cbn [bind]; [|discriminate]. rewrite orb_true_r. cbn. now intros [= <-].
  - specialize (NS ltac:(congruence)). destruct (is_socket s p); [apply proj1 in SK; specialize (SK eq_refl); discriminate|].
    unfold valid_in in NS. destruct (entry (tab s) p) as [v|]; cbn [bind]; [|discriminate]. apply negb_false_iff in NS. rewrite NS. cbn. now intros [= <-].
Qed.
