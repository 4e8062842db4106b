(* What guards and defer should do, and what they do if the guards of each thread end in the reverse order *)
From Coq Require Import List Arith Bool Lia.
From Verif Require Import Base GdModel.
Import ListNotations.

(* ---- What is asked for: every flow has its own guards ---- *)
Record sp := mkSp { gs : nat -> list (list nat); mine : nat -> list nat; ran : list (nat * nat) }.

Definition put {A} (m : nat -> A) (k : nat) (v : A) : nat -> A := fun x => if x =? k then v else m x.

Definition sp0 : sp := mkSp (fun _ => []) (fun _ => []) [].

Definition sp_step (p : sp) (a : nat * op) : sp :=
  let (f, o) := a in
  match o with
  | Defer k => match gs p f with
               | [] => mkSp (gs p) (put (mine p) f (k :: mine p f)) (ran p)
               | l :: r => mkSp (put (gs p) f ((k :: l) :: r)) (mine p) (ran p)
               end
  | Enter => mkSp (put (gs p) f ([] :: gs p f)) (mine p) (ran p)
  | Leave => match gs p f with
             | [] => p
             | l :: r => mkSp (put (gs p) f r) (mine p) (rev (map (fun k => (f, k)) l) ++ ran p)
             end
  | Finish => mkSp (gs p) (put (mine p) f []) (rev (map (fun k => (f, k)) (mine p f)) ++ ran p)
  end.

Definition sp_run (l : list (nat * op)) : sp := fold_left sp_step l sp0.

(* The flows with an open guard, that of the innermost first: [m] says which flows are looked at together *)
Definition ord_step (o : list nat) (a : nat * op) : list nat :=
  match a with (f, Enter) => f :: o | (f, Leave) => tl o | _ => o end.

(* In each group of flows guards end in the reverse order, and only the flow of the innermost defers *)
Fixpoint nested (m : nat -> nat) (o : nat -> list nat) (l : list (nat * op)) : Prop :=
  match l with
  | [] => True
  | (f, a) :: l =>
      match a with
      | Defer _ => o (m f) = [] \/ hd_error (o (m f)) = Some f
      | Leave => hd_error (o (m f)) = Some f
      | _ => True
      end /\ nested m (put o (m f) (ord_step (o (m f)) (f, a))) l
  end.

Definition none_open : nat -> list nat := fun _ => [].

(* ---- Proof ---- *)
Lemma upd_same A (m : nat -> A) k v : upd m k v k = v.
Proof. unfold upd. now rewrite Nat.eqb_refl. Qed.
Lemma upd_other A (m : nat -> A) k v x : x <> k -> upd m k v x = m x.
Proof. intro. unfold upd. destruct (Nat.eqb_spec x k); [contradiction|reflexivity]. Qed.
Lemma put_same A (m : nat -> A) k v : put m k v k = v.
Proof. unfold put. now rewrite Nat.eqb_refl. Qed.
Lemma put_other A (m : nat -> A) k v x : x <> k -> put m k v x = m x.
Proof. intro. unfold put. destruct (Nat.eqb_spec x k); [contradiction|reflexivity]. Qed.

Definition of (f : nat) (G : list (nat * frame)) : list frame :=
  map snd (filter (fun x => fst x =? f) G).

Definition top (G : list (nat * frame)) : option nat :=
  match G with [] => None | x :: _ => Some (fr_block (snd x)) end.

Fixpoint chain (G : list (nat * frame)) : Prop :=
  match G with [] => True | x :: r => fr_arena (snd x) = top r /\ chain r end.

Definition body (h : list block) (fr : frame) : list nat :=
  match nth_error h (fr_block fr) with Some c => fns c | None => [] end.

Section P.
Variable th : nat -> nat.
Variable tsk : nat -> bool.

Record inv (s : st) (p : sp) (o : nat -> list nat) (G : nat -> list (nat * frame)) : Prop := {
  i_o : forall t, map fst (G t) = o t;
  i_fr : forall f, frames s f = of f (G (th f));
  i_ch : forall t, chain (G t);
  i_loc : forall t, loc s t = mkL (top (G t)) (match G t with [] => false | _ => true end);
  i_th : forall t f fr, In (f, fr) (G t) -> th f = t;
  i_live : forall t f fr, In (f, fr) (G t) -> exists l, nth_error (heap s) (fr_block fr) = Some (mkB true l f);
  i_nd : forall t, NoDup (map (fun x => fr_block (snd x)) (G t));
  i_gs : forall f, gs p f = map (body (heap s)) (frames s f);
  i_tsc : forall f, tsc s f = None \/ tsk f = true /\ exists fr r, frames s f = fr :: r /\ tsc s f = Some (fr_block fr);
  i_own : forall f, own s f = mine p f;
  i_out : out s = ran p }.

Lemma inv0 : inv init sp0 none_open (fun _ => []).
Proof. constructor; cbn; intros; try reflexivity; try contradiction; auto; constructor. Qed.

Lemma of_in f fr G : In fr (of f G) -> In (f, fr) G.
Proof.
  unfold of. rewrite in_map_iff. intros ((g & x) & E & I0). cbn in E; subst x.
  apply filter_In in I0 as [I0 E]. cbn in E. apply Nat.eqb_eq in E. now subst.
Qed.

Lemma of_cons_same f fr G : of f ((f, fr) :: G) = fr :: of f G.
Proof. unfold of. cbn. now rewrite Nat.eqb_refl. Qed.
Lemma of_cons_other f g fr G : g <> f -> of g ((f, fr) :: G) = of g G.
Proof. intro. unfold of. cbn. destruct (Nat.eqb_spec f g); [congruence|reflexivity]. Qed.

(* the body of a frame of another place is not changed by a write into block b *)
Lemma body_other h b c fr : fr_block fr <> b -> body (set_nth b c h) fr = body h fr.
Proof. intro. unfold body. now rewrite set_nth_other by auto. Qed.

Lemma owner_eq s p o G t t' f g x y : inv s p o G -> In (f, x) (G t) -> In (g, y) (G t') -> fr_block x = fr_block y -> f = g.
Proof.
  intros V A B E. destruct (i_live _ _ _ _ V _ _ _ A) as (l & L). destruct (i_live _ _ _ _ V _ _ _ B) as (l' & L').
  rewrite E, L' in L. congruence.
Qed.

Lemma not_top s p o G T f fr r : inv s p o G -> G T = (f, fr) :: r ->
  (forall g x, g <> f -> In x (frames s g) -> fr_block x <> fr_block fr) /\
  (frames s f = fr :: of f r) /\ (forall x, In x (of f r) -> fr_block x <> fr_block fr) /\ th f = T.
Proof.
  intros V E.
  assert (I0 : In (f, fr) (G T)) by (rewrite E; now left).
  assert (ET : th f = T) by (eapply i_th; eauto).
  repeat split.
  - intros g x N I1 B. rewrite (i_fr _ _ _ _ V) in I1. apply of_in in I1.
    apply N. eapply owner_eq; eauto.
  - rewrite (i_fr _ _ _ _ V), ET, E. apply of_cons_same.
  - intros x I1 B. apply of_in in I1.
    pose proof (i_nd _ _ _ _ V T) as D. rewrite E in D. cbn in D. inversion D as [|? ? N _]; subst.
    apply N. rewrite <- B. apply in_map_iff. exists (f, x). auto.
  - exact ET.
Qed.

Lemma hd_G s p o G T f : inv s p o G -> hd_error (o T) = Some f -> exists fr r, G T = (f, fr) :: r.
Proof.
  intros V E. rewrite <- (i_o _ _ _ _ V) in E. destruct (G T) as [|(g & fr) r]; [discriminate|].
  cbn in E. injection E as ->. eauto.
Qed.

Lemma map_body h h' l : (forall x, In x l -> body h' x = body h x) -> map (body h') l = map (body h) l.
Proof. intro K. apply map_ext_in. exact K. Qed.

Lemma step_defer s p o G f k : inv s p o G -> (o (th f) = [] \/ hd_error (o (th f)) = Some f) ->
  exists s', defer th tsk s f k = Ok s' /\ inv s' (sp_step p (f, Defer k)) (put o (th f) (ord_step (o (th f)) (f, Defer k))) G /\
    hook s' = hook s /\ frames s' = frames s /\ loc s' = loc s.
Proof.
  intros V C.
  assert (PO : forall t, put o (th f) (o (th f)) t = o t).
  { intro t. unfold put. destruct (Nat.eqb_spec t (th f)); congruence. }
  destruct C as [C|C].
  - assert (E : G (th f) = []). { rewrite <- (i_o _ _ _ _ V) in C. now apply map_eq_nil in C. }
    assert (F : frames s f = []) by (rewrite (i_fr _ _ _ _ V), E; reflexivity).
    assert (T : tsc s f = None). { destruct (i_tsc _ _ _ _ V f) as [|(_ & fr & r & X & _)]; [auto|congruence]. }
    assert (GS : gs p f = []) by (rewrite (i_gs _ _ _ _ V), F; reflexivity).
    unfold defer, is_guarded, get_scope. rewrite T. cbn [bind].
    replace (if tsk f then @None nat else None) with (@None nat) by (destruct (tsk f); reflexivity).
    rewrite (i_loc _ _ _ _ V), E. cbn [stat bind].
    eexists. split; [reflexivity|]. split; [|auto].
    cbn [sp_step ord_step]. rewrite GS.
    destruct V. constructor; cbn [heap loc tsc own frames hook out gs mine ran]; auto.
    + intro t. now rewrite PO.
    + intro g. unfold upd, put. destruct (g =? f); [now rewrite i_own0|auto].
  - destruct (hd_G _ _ _ _ _ _ V C) as (fr & r & E).
    destruct (not_top _ _ _ _ _ _ _ _ V E) as (N1 & F & N2 & _).
    destruct (i_live _ _ _ _ V (th f) f fr) as (l & L); [rewrite E; now left|].
    assert (GT : is_guarded th tsk s f = Ok true).
    { unfold is_guarded, get_scope.
      assert (K : (if tsk f then tsc s f else None) = None \/ (if tsk f then tsc s f else None) = Some (fr_block fr)).
      { destruct (tsk f); [|auto]. destruct (i_tsc _ _ _ _ V f) as [|(_ & fr' & r' & X & Y)]; [auto|]. right. congruence. }
      destruct K as [-> | ->]; cbn [bind].
      - rewrite (i_loc _ _ _ _ V), E. cbn. now rewrite (rd_ok _ _ _ L).
      - now rewrite (rd_ok _ _ _ L). }
    unfold defer. rewrite GT. cbn [bind].
    rewrite (i_loc _ _ _ _ V), E. cbn [arena top snd scope_deferred]. rewrite (rd_ok _ _ _ L). cbn [bind live fns owner].
    assert (LT : fr_block fr < length (heap s)) by (apply nth_error_Some; congruence).
    rewrite wr_ok by exact LT. cbn [bind].
    eexists. split; [reflexivity|]. split; [|auto].
    cbn [sp_step ord_step].
    assert (GS : gs p f = l :: map (body (heap s)) (of f r)).
    { rewrite (i_gs _ _ _ _ V), F. cbn. unfold body at 1. now rewrite L. }
    rewrite GS. set (h' := set_nth _ _ _).
    assert (BO : forall x, fr_block x <> fr_block fr -> body h' x = body (heap s) x) by (intros; now apply body_other).
    destruct V. constructor; cbn [heap loc tsc own frames hook out gs mine ran]; auto.
    + intro t. now rewrite PO.
    + intros t g x I1. destruct (Nat.eq_dec (fr_block x) (fr_block fr)) as [Q|Q].
      * assert (g = f).
        { destruct (i_live0 _ _ _ I1) as (l' & L'). rewrite Q in L'. congruence. }
        subst g. exists (k :: l). rewrite Q. unfold h'. rewrite set_nth_same by exact LT. reflexivity.
      * destruct (i_live0 _ _ _ I1) as (l' & L'). exists l'. unfold h'. rewrite set_nth_other by auto. exact L'.
    + intro g. unfold put. destruct (Nat.eqb_spec g f) as [-> |Q].
      * rewrite F. cbn [map]. f_equal.
        -- unfold body, h'. now rewrite set_nth_same by exact LT.
        -- symmetry. apply map_body. intros x I1. apply BO. now apply N2.
      * rewrite i_gs0. symmetry. apply map_body. intros x I1. apply BO. eapply N1; eauto.
Qed.

Lemma body_app h c x : fr_block x < length h -> body (h ++ [c]) x = body h x.
Proof. intro. unfold body. now rewrite nth_error_app1. Qed.

Lemma in_frames_lt s p o G f x : inv s p o G -> In x (frames s f) -> fr_block x < length (heap s).
Proof.
  intros V I1. rewrite (i_fr _ _ _ _ V) in I1. apply of_in in I1.
  destruct (i_live _ _ _ _ V _ _ _ I1) as (l & L). apply nth_error_Some. congruence.
Qed.

Lemma step_enter s p o G f : inv s p o G ->
  let fr := mkF (length (heap s)) (arena (loc s (th f))) (hook s) in
  exists s', enter th tsk s f = Ok s' /\
    inv s' (sp_step p (f, Enter)) (put o (th f) (ord_step (o (th f)) (f, Enter))) (put G (th f) ((f, fr) :: G (th f))) /\
    hook s' = true /\ frames s' = upd (frames s) f (fr :: frames s f) .
Proof.
  intros V fr. unfold enter. eexists. split; [reflexivity|]. split; [|auto].
  cbn [sp_step ord_step]. fold fr.
  assert (LTG : forall t g x, In (g, x) (G t) -> fr_block x < length (heap s)).
  { intros t g x I1. destruct (i_live _ _ _ _ V _ _ _ I1) as (l & L). apply nth_error_Some. congruence. }
  assert (LTF : forall g x, In x (frames s g) -> fr_block x < length (heap s)) by (intros; eapply in_frames_lt; eauto).
  destruct V. constructor; cbn [heap loc tsc own frames hook out gs mine ran].
  - intro t. unfold put. destruct (Nat.eqb_spec t (th f)) as [-> |]; [cbn; now rewrite i_o0|auto].
  - intro g. unfold upd. destruct (Nat.eqb_spec g f) as [-> |Q].
    + rewrite put_same, of_cons_same. now rewrite i_fr0.
    + unfold put. destruct (Nat.eqb_spec (th g) (th f)) as [H|H].
      * rewrite of_cons_other by auto. rewrite i_fr0. now rewrite H.
      * auto.
  - intro t. unfold put. destruct (Nat.eqb_spec t (th f)) as [-> |]; [|auto].
    cbn. rewrite i_loc0. auto.
  - intro t. unfold put, upd. destruct (Nat.eqb_spec t (th f)); [reflexivity|auto].
  - intros t g x. unfold put. destruct (Nat.eqb_spec t (th f)) as [-> |]; [|eauto].
    intros [[= <- <-]|I1]; [reflexivity|eauto].
  - intros t g x. unfold put.
    assert (K : forall t, In (g, x) (G t) -> exists l, nth_error (heap s ++ [mkB true [] f]) (fr_block x) = Some (mkB true l g)).
    { intros t' I1. rewrite nth_error_app1 by eauto. eauto. }
    destruct (Nat.eqb_spec t (th f)) as [-> |]; [|eauto].
    intros [[= <- <-]|I1]; [|eauto].
    exists []. cbn. rewrite nth_error_app2, Nat.sub_diag by lia. reflexivity.
  - intro t. unfold put. destruct (Nat.eqb_spec t (th f)) as [-> |]; [|auto].
    cbn. constructor; [|auto]. intro I1. apply in_map_iff in I1 as ((g & x) & E & I1). cbn in E.
    apply LTG in I1. lia.
  - intro g. unfold put, upd. destruct (Nat.eqb_spec g f) as [-> |Q].
    + cbn [map]. f_equal.
      * unfold body, fr. cbn. rewrite nth_error_app2, Nat.sub_diag by lia. reflexivity.
      * rewrite i_gs0. symmetry. apply map_body. intros x I1. apply body_app. eauto.
    + rewrite i_gs0. symmetry. apply map_body. intros x I1. apply body_app. eauto.
  - intro g. unfold upd. destruct (tsk f) eqn:TF.
    + destruct (Nat.eqb_spec g f) as [-> |Q].
      * right. split; [exact TF|]. exists fr, (frames s f). split; reflexivity.
      * auto.
    + destruct (i_tsc0 g) as [A|(T & x & r & A & B)]; [auto|].
      destruct (Nat.eqb_spec g f) as [-> |Q]; [congruence|right; eauto].
  - auto.
  - auto.
Qed.

Lemma step_leave s p o G f : inv s p o G -> hd_error (o (th f)) = Some f ->
  exists s' fr r, leave th tsk s f = Ok s' /\ G (th f) = (f, fr) :: r /\
    inv s' (sp_step p (f, Leave)) (put o (th f) (ord_step (o (th f)) (f, Leave))) (put G (th f) r) /\
    hook s' = fr_set fr /\ frames s f = fr :: of f r /\ frames s' = upd (frames s) f (of f r).
Proof.
  intros V C.
  destruct (hd_G _ _ _ _ _ _ V C) as (fr & r & E).
  destruct (not_top _ _ _ _ _ _ _ _ V E) as (N1 & F & N2 & _).
  destruct (i_live _ _ _ _ V (th f) f fr) as (l & L); [rewrite E; now left|].
  assert (LT : fr_block fr < length (heap s)) by (apply nth_error_Some; congruence).
  unfold leave. rewrite F, (rd_ok _ _ _ L). cbn [bind live fns owner]. rewrite wr_ok by exact LT. cbn [bind].
  eexists _, fr, r. split; [reflexivity|]. split; [exact E|]. split; [|auto].
  cbn [sp_step ord_step].
  assert (GS : gs p f = l :: map (body (heap s)) (of f r)).
  { rewrite (i_gs _ _ _ _ V), F. cbn. unfold body at 1. now rewrite L. }
  rewrite GS. set (h' := set_nth _ _ _).
  assert (BO : forall x, fr_block x <> fr_block fr -> body h' x = body (heap s) x) by (intros; now apply body_other).
  assert (CH : fr_arena fr = top r /\ chain r). { pose proof (i_ch _ _ _ _ V (th f)) as K. rewrite E in K. exact K. }
  assert (ND : NoDup (map (fun x => fr_block (snd x)) r) /\ ~ In (fr_block fr) (map (fun x => fr_block (snd x)) r)).
  { pose proof (i_nd _ _ _ _ V (th f)) as K. rewrite E in K. cbn in K. inversion K; auto. }
  assert (NR : forall t g x, In (g, x) (put G (th f) r t) -> In (g, x) (G t) /\ fr_block x <> fr_block fr).
  { intros t g x. unfold put. destruct (Nat.eqb_spec t (th f)) as [-> |Q]; intro I1.
    - split; [rewrite E; now right|]. intro B. apply (proj2 ND). rewrite <- B. apply in_map_iff. exists (g, x). auto.
    - split; [exact I1|]. intro B. assert (g = f).
      { eapply owner_eq; [exact V|exact I1| |exact B]. rewrite E. now left. }
      subst g. apply Q. symmetry. eapply i_th; eauto. }
  assert (OR : forall g, upd (frames s) f (of f r) g = of g (put G (th f) r (th g))).
  { intro g. unfold upd. destruct (Nat.eqb_spec g f) as [-> |Q]; [now rewrite put_same|].
    rewrite (i_fr _ _ _ _ V). unfold put. destruct (Nat.eqb_spec (th g) (th f)) as [H|H]; [|reflexivity].
    rewrite H, E, of_cons_other by auto. reflexivity. }
  destruct V. constructor; cbn [heap loc tsc own frames hook out gs mine ran].
  - intro t. unfold put. destruct (Nat.eqb_spec t (th f)) as [-> |]; [|auto].
    rewrite <- i_o0, E. reflexivity.
  - exact OR.
  - intro t. unfold put. destruct (Nat.eqb_spec t (th f)) as [-> |]; [tauto|auto].
  - intro t. unfold put, upd. destruct (Nat.eqb_spec t (th f)) as [-> |]; [|auto].
    rewrite (proj1 CH), i_loc0, E. destruct r; reflexivity.
  - intros t g x I1. apply NR in I1. eapply i_th0, I1.
  - intros t g x I1. apply NR in I1 as [I1 Q]. destruct (i_live0 _ _ _ I1) as (l' & L'). exists l'.
    unfold h'. rewrite set_nth_other by auto. exact L'.
  - intro t. unfold put. destruct (Nat.eqb_spec t (th f)) as [-> |]; [tauto|auto].
  - intro g. unfold put, upd. destruct (Nat.eqb_spec g f) as [-> |Q].
    + symmetry. apply map_body. intros x I1. apply BO. now apply N2.
    + rewrite i_gs0. symmetry. apply map_body. intros x I1. apply BO. eapply N1; eauto.
  - intro g. unfold upd. destruct (tsk f) eqn:TF.
    + destruct (Nat.eqb_spec g f) as [-> |Q]; auto.
    + destruct (i_tsc0 g) as [A|(T & x & r' & A & B)]; [auto|].
      destruct (Nat.eqb_spec g f) as [-> |Q]; [congruence|right; eauto].
  - auto.
  - now rewrite i_out0.
Qed.

Lemma step_finish s p o G f : inv s p o G ->
  exists s', finish s f = Ok s' /\ inv s' (sp_step p (f, Finish)) (put o (th f) (ord_step (o (th f)) (f, Finish))) G /\
    hook s' = hook s /\ frames s' = frames s /\ loc s' = loc s.
Proof.
  intro V. unfold finish. eexists. split; [reflexivity|]. split; [|auto].
  cbn [sp_step ord_step]. destruct V. constructor; cbn [heap loc tsc own frames hook out gs mine ran]; auto.
  - intro t. unfold put. destruct (Nat.eqb_spec t (th f)) as [-> |]; auto.
  - intro g. unfold upd, put. destruct (g =? f); auto.
  - now rewrite i_out0, i_own0.
Qed.

Lemma run_inv l : forall s p o G, inv s p o G -> nested th o l ->
  exists s' o' G', run th tsk s l = Ok s' /\ inv s' (fold_left sp_step l p) o' G'.
Proof.
  induction l as [|(f & a) l IH]; intros s p o G V N.
  - exists s, o, G. auto.
  - cbn [nested] in N. destruct N as [C N]. cbn [run step fold_left].
    destruct a as [k| | |].
    + destruct (step_defer _ _ _ _ f k V C) as (s' & E & V' & _). rewrite E. cbn [bind]. eapply IH; eauto.
    + destruct (step_enter _ _ _ _ f V) as (s' & E & V' & _). rewrite E. cbn [bind]. eapply IH; eauto.
    + destruct (step_leave _ _ _ _ f V C) as (s' & fr & r & E & _ & V' & _). rewrite E. cbn [bind]. eapply IH; eauto.
    + destruct (step_finish _ _ _ _ f V) as (s' & E & V' & _). rewrite E. cbn [bind]. eapply IH; eauto.
Qed.

(* every function runs in the guard it was deferred in, whatever the other threads do *)
Lemma nested_ok l : nested th none_open l ->
  exists s, run th tsk init l = Ok s /\ out s = ran (sp_run l).
Proof.
  intro N. destruct (run_inv l _ _ _ _ inv0 N) as (s & o & G & E & V). exists s. split; [exact E|].
  exact (i_out _ _ _ _ V).
Qed.
End P.
