(* What try blocks should do for each flow by itself, and that they do it if the blocks of each thread are nested *)
From Coq Require Import List Arith Bool Lia.
From Verif Require Import Base TxModel.
Import ListNotations.

(* ---- What is asked for: every flow has its own blocks ---- *)
(* a block: its number, whether the flow is in its finally part, what is protected in it (latest first) *)
Record blk := mkK { bid : nat; bfin : bool; bps : list nat }.
Record sp := mkSp { fl : nat -> list blk; count : nat; stopped : bool; log : list event }.
Definition sp0 : sp := mkSp (fun _ => []) 0 false [].

Definition put {A} (m : nat -> A) (k : nat) (v : A) : nat -> A := fun x => if x =? k then v else m x.

(* the innermost block that is not in its finally part *)
Definition active (l : list blk) : list blk := filter (fun k => negb (bfin k)) l.
Fixpoint inner (g : list nat -> list nat) (l : list blk) : list blk :=
  match l with
  | [] => []
  | k :: r => if bfin k then k :: inner g r else mkK (bid k) false (g (bps k)) :: r
  end.

Definition sp_step (p : sp) (a : nat * op) : sp :=
  let (f, o) := a in
  if stopped p then p else
  match o with
  | Enter => mkSp (put (fl p) f (mkK (count p) false [] :: fl p f)) (S (count p)) false (log p)
  | Throw e => match active (fl p f) with
               | [] => mkSp (fl p) (count p) true (Ended f e :: log p)
               | k :: _ => mkSp (put (fl p) f (inner (fun _ => []) (fl p f))) (count p) false (Got f (bid k) e (bps k) :: log p)
               end
  | Final => match fl p f with
             | k :: r => mkSp (put (fl p) f (mkK (bid k) true (bps k) :: r)) (count p) false (log p)
             | [] => p
             end
  | Leave => mkSp (put (fl p) f (tl (fl p f))) (count p) false (log p)
  | Protect x => mkSp (put (fl p) f (inner (cons x) (fl p f))) (count p) false (log p)
  | Unprotect x => mkSp (put (fl p) f (inner (@tl nat) (fl p f))) (count p) false (log p)
  end.

Definition sp_run (l : list (nat * op)) : sp := fold_left sp_step l sp0.

(* The flows of the blocks that are not in their finally part, the latest first *)
Definition ord_step (p : sp) (o : list nat) (a : nat * op) : list nat :=
  match a with
  | (f, Enter) => f :: o
  | (f, Final) => tl o
  | (f, Leave) => match fl p f with k :: _ => if bfin k then o else tl o | [] => o end
  | _ => o
  end.

(* Every flow uses its blocks properly: it leaves blocks it is in, comes to a finally part once, and takes a protection back
   that was given last; every protection has a record of its own *)
Definition proper (p : sp) (a : nat * op) : Prop :=
  let (f, o) := a in
  match o with
  | Final => exists k r, fl p f = k :: r /\ bfin k = false
  | Leave => fl p f <> []
  | Protect x => active (fl p f) <> [] /\ forall g k, In k (fl p g) -> ~ In x (bps k)
  | Unprotect x => exists k r, active (fl p f) = k :: r /\ hd_error (bps k) = Some x
  | _ => True
  end.

(* In each thread the blocks end in the reverse order, and only the flow of the latest throws or protects *)
Definition in_turn (p : sp) (o : list nat) (a : nat * op) : Prop :=
  let (f, x) := a in
  match x with
  | Enter => True
  | Throw _ => o = [] \/ hd_error o = Some f
  | Leave => match fl p f with k :: _ => if bfin k then True else hd_error o = Some f | [] => True end
  | _ => hd_error o = Some f
  end.

Fixpoint nested (th : nat -> nat) (p : sp) (o : nat -> list nat) (l : list (nat * op)) : Prop :=
  match l with
  | [] => True
  | a :: l => stopped p = true \/
      (proper p a /\ in_turn p (o (th (fst a))) a /\
       nested th (sp_step p a) (put o (th (fst a)) (ord_step p (o (th (fst a))) a)) l)
  end.

Definition none_open : nat -> list nat := fun _ => [].

(* the flows of the open blocks of every thread after l, that of the latest first *)
Definition track (th : nat -> nat) (po : sp * (nat -> list nat)) (a : nat * op) : sp * (nat -> list nat) :=
  (sp_step (fst po) a, put (snd po) (th (fst a)) (ord_step (fst po) (snd po (th (fst a))) a)).
Definition opened (th : nat -> nat) (l : list (nat * op)) : nat -> list nat := snd (fold_left (track th) l (sp0, none_open)).

(* ---- Proof ---- *)
Lemma put_same A (m : nat -> A) k v : put m k v k = v.
Proof. unfold put. now rewrite Nat.eqb_refl. Qed.
Lemma put_other A (m : nat -> A) k v x : x <> k -> put m k v x = m x.
Proof. intro. unfold put. destruct (Nat.eqb_spec x k); [contradiction|reflexivity]. Qed.

Definition top (G : list (nat * nat)) : option nat := match G with [] => None | x :: _ => Some (snd x) end.
Definition nxt (h : list ctx) (b : nat) : option nat := match nth_error h b with Some c => next c | None => None end.
Fixpoint chain (h : list ctx) (G : list (nat * nat)) : Prop :=
  match G with [] => True | x :: r => nxt h (snd x) = top r /\ chain h r end.
Definition of (f : nat) (G : list (nat * nat)) : list nat := map snd (filter (fun x => fst x =? f) G).
Fixpoint okb (bel : nat -> list nat) (l : list nat) : Prop :=
  match l with [] => True | x :: r => bel x = r /\ okb bel r end.

Lemma of_cons_same f b G : of f ((f, b) :: G) = b :: of f G.
Proof. unfold of. cbn. now rewrite Nat.eqb_refl. Qed.
Lemma of_cons_other f g b G : g <> f -> of g ((f, b) :: G) = of g G.
Proof. intro. unfold of. cbn. destruct (Nat.eqb_spec f g); [congruence|reflexivity]. Qed.
Lemma of_in f b G : In (f, b) G <-> In b (of f G).
Proof.
  unfold of. rewrite in_map_iff. split.
  - intro I0. exists (f, b). split; [reflexivity|]. apply filter_In. cbn. rewrite Nat.eqb_refl. auto.
  - intros ((g & x) & E & I0). cbn in E; subst x.
    apply filter_In in I0 as [I0 E]. cbn in E. apply Nat.eqb_eq in E. now subst.
Qed.

Lemma chain_ext h h' G : (forall f b, In (f, b) G -> nxt h' b = nxt h b) -> chain h G -> chain h' G.
Proof.
  induction G as [|(f & b) G IH]; cbn; [auto|]. intros K [A B]. split.
  - rewrite <- A. eapply K. now left.
  - apply IH; [|exact B]. intros. eapply K. right. eassumption.
Qed.

Lemma inner_bid g l : map bid (inner g l) = map bid l.
Proof. induction l as [|k r IH]; cbn; [auto|]. destruct (bfin k); cbn; [now rewrite IH|reflexivity]. Qed.
Lemma inner_active g l : map bid (active (inner g l)) = map bid (active l).
Proof. unfold active. induction l as [|k r IH]; cbn; [auto|]. destruct (bfin k) eqn:E; cbn; rewrite ?E; cbn; [exact IH|reflexivity]. Qed.
Lemma inner_in g l k k0 r : active l = k0 :: r -> NoDup (map bid l) -> In k (inner g l) ->
  (bid k = bid k0 /\ k = mkK (bid k0) false (g (bps k0))) \/ (bid k <> bid k0 /\ In k l).
Proof.
  induction l as [|x l IH]; [discriminate|]. cbn. intros E D I0. inversion D as [|? ? N D']; subst.
  destruct (bfin x) eqn:F; cbn in E.
  - destruct I0 as [<- |I0].
    + right. split; [|auto]. intro B. apply N. rewrite B. apply in_map_iff. exists k0. split; [reflexivity|].
      assert (In k0 (active l)) by (unfold active; rewrite E; now left). unfold active in H. now apply filter_In in H.
    + destruct (IH E D' I0) as [|[A B]]; auto.
  - injection E as <- <-. destruct I0 as [<- |I0]; [left; auto|].
    right. split; [|auto]. intro B. apply N. rewrite <- B. now apply in_map.
Qed.

Section P.
Variable th : nat -> nat.

Record inv (s : st) (p : sp) (o : nat -> list nat) (G : nat -> list (nat * nat)) : Prop := {
  i_o : forall t, map fst (G t) = o t;
  i_act : forall f, map bid (active (fl p f)) = of f (G (th f));
  i_fr : forall f, frames s f = map bid (fl p f);
  i_ch : forall t, chain (heap s) (G t);
  i_cur : forall t, cur s t = top (G t);
  i_th : forall t f b, In (f, b) (G t) -> th f = t;
  i_live : forall f k, In k (fl p f) -> exists n, nth_error (heap s) (bid k) = Some (mkC f n (bps k) true);
  i_nd : forall f, NoDup (map bid (fl p f));
  i_ok : forall f k, In k (fl p f) -> okb (below s) (bps k);
  i_len : count p = length (heap s);
  i_over : over s = stopped p;
  i_tr : tr s = log p }.

Lemma inv0 : inv init sp0 none_open (fun _ => []).
Proof. constructor; cbn; intros; try reflexivity; try contradiction; auto; constructor. Qed.

Lemma act_in l k : In k (active l) -> In k l.
Proof. unfold active. intro I0. now apply filter_In in I0. Qed.

(* the latest block of the thread belongs to f: it is the innermost active block of f *)
Lemma hd_G s p o G f : inv s p o G -> hd_error (o (th f)) = Some f ->
  exists k r R, G (th f) = (f, bid k) :: R /\ active (fl p f) = k :: r /\ map bid r = of f R.
Proof.
  intros V E. rewrite <- (i_o _ _ _ _ V) in E. destruct (G (th f)) as [|(g & b) R] eqn:EG; [discriminate|].
  cbn in E. injection E as ->. pose proof (i_act _ _ _ _ V f) as A. rewrite EG, of_cons_same in A.
  destruct (active (fl p f)) as [|k r]; [discriminate|]. cbn in A. injection A as <- A. exists k, r, R. auto.
Qed.

Lemma live_lt s p o G f k : inv s p o G -> In k (fl p f) -> bid k < length (heap s).
Proof. intros V I0. destruct (i_live _ _ _ _ V _ _ I0) as (n & L). apply nth_error_Some. congruence. Qed.

Lemma own s p o G f g k k' : inv s p o G -> In k (fl p f) -> In k' (fl p g) -> bid k = bid k' -> f = g.
Proof.
  intros V A B E. destruct (i_live _ _ _ _ V _ _ A) as (n & L). destruct (i_live _ _ _ _ V _ _ B) as (n' & L').
  rewrite E, L' in L. congruence.
Qed.

Lemma nxt_set h b c c' x : nth_error h b = Some c -> next c' = next c -> nxt (set_nth b c' h) x = nxt h x.
Proof.
  intros E N. unfold nxt. destruct (Nat.eq_dec b x) as [<- |Q].
  - rewrite set_nth_same by (apply nth_error_Some; congruence). now rewrite E.
  - now rewrite set_nth_other by auto.
Qed.

(* the protections of the innermost active block of f change *)
Lemma change s p o G f g bel tr' : inv s p o G -> hd_error (o (th f)) = Some f ->
  forall k r, active (fl p f) = k :: r ->
  (forall h x, In x (fl p h) -> bid x <> bid k -> okb bel (bps x)) -> okb bel (g (bps k)) ->
  exists n, nth_error (heap s) (bid k) = Some (mkC f n (bps k) true) /\
    inv (mkS (set_nth (bid k) (mkC f n (g (bps k)) true) (heap s)) (cur s) (frames s) bel (stopped p) tr')
        (mkSp (put (fl p) f (inner g (fl p f))) (count p) (stopped p) tr') o G.
Proof.
  intros V E k r A B1 B2.
  assert (IK : In k (fl p f)) by (apply act_in; rewrite A; now left).
  destruct (i_live _ _ _ _ V _ _ IK) as (n & L). exists n. split; [exact L|].
  assert (LT := live_lt _ _ _ _ _ _ V IK).
  pose proof (fun g k k' => own _ _ _ _ f g k k' V) as OW.
  destruct V. constructor; cbn [heap cur frames below over tr fl count stopped log]; auto.
  - intro h. unfold put. destruct (Nat.eqb_spec h f) as [-> |]; [rewrite inner_active|]; auto.
  - intro h. unfold put. destruct (Nat.eqb_spec h f) as [-> |]; [rewrite inner_bid|]; auto.
  - intro t. eapply chain_ext; [|apply i_ch0]. intros h b _. eapply nxt_set; [exact L|reflexivity].
  - intros h x. unfold put. destruct (Nat.eqb_spec h f) as [-> |Q].
    + intro I0. destruct (inner_in _ _ _ _ _ A (i_nd0 f) I0) as [[_ ->]|[N I1]].
      * exists n. cbn. now rewrite set_nth_same by exact LT.
      * rewrite set_nth_other by auto. eauto.
    + intro I0. rewrite set_nth_other; [eauto|]. intro B. apply Q. symmetry. eapply OW; eauto.
  - intro h. unfold put. destruct (Nat.eqb_spec h f) as [-> |]; [rewrite inner_bid|]; auto.
  - intros h x. unfold put. destruct (Nat.eqb_spec h f) as [-> |Q].
    + intro I0. destruct (inner_in _ _ _ _ _ A (i_nd0 f) I0) as [[_ ->]|[N I1]]; [exact B2|eauto].
    + intro I0. eapply B1; eauto. intro B. apply Q. symmetry. eapply OW; eauto.
  - now rewrite set_nth_length.
Qed.

Lemma o_same (o : nat -> list nat) t0 t : put o t0 (o t0) t = o t.
Proof. unfold put. destruct (Nat.eqb_spec t t0); congruence. Qed.

Lemma inv_o s p o o' G : inv s p o G -> (forall t, o' t = o t) -> inv s p o' G.
Proof. intros V K. destruct V. constructor; auto. intro t. now rewrite K. Qed.

Lemma step_throw s p o G f e : inv s p o G -> stopped p = false -> (o (th f) = [] \/ hd_error (o (th f)) = Some f) ->
  exists s', throw th s f e = Ok s' /\ inv s' (sp_step p (f, Throw e)) (put o (th f) (o (th f))) G.
Proof.
  intros V ST [C|C].
  - assert (E : G (th f) = []). { rewrite <- (i_o _ _ _ _ V) in C. now apply map_eq_nil in C. }
    assert (A : active (fl p f) = []). { pose proof (i_act _ _ _ _ V f) as A. rewrite E in A. now apply map_eq_nil in A. }
    unfold throw, target. rewrite (i_cur _ _ _ _ V), E. cbn [top bind].
    eexists. split; [reflexivity|]. cbn [sp_step]. rewrite ST, A.
    eapply inv_o; [|apply o_same].
    destruct V. constructor; cbn [heap cur frames below over tr fl count stopped log]; auto. now rewrite i_tr0.
  - destruct (hd_G _ _ _ _ _ V C) as (k & r & R & E & A & _).
    destruct (change s p o G f (fun _ => []) (below s) (Got f (bid k) e (bps k) :: log p) V C k r A) as (n & L & V').
    + intros h x I0 _. exact (i_ok _ _ _ _ V h x I0).
    + exact Logic.I.
    + unfold throw, target. rewrite (i_cur _ _ _ _ V), E. cbn [top snd]. rewrite (rd_ok _ _ _ L). cbn [bind alive owner].
      rewrite Nat.eqb_refl, (rd_ok _ _ _ L). cbn [bind owner next alive prot].
      rewrite wr_ok by (apply nth_error_Some; congruence). cbn [bind].
      eexists. split; [reflexivity|]. cbn [sp_step]. rewrite ST, A.
      eapply inv_o; [|apply o_same]. rewrite (i_tr _ _ _ _ V). rewrite (i_over _ _ _ _ V), ST. rewrite ST in V'. exact V'.
Qed.

Lemma okb_upd bel x v l : ~ In x l -> okb bel l -> okb (upd bel x v) l.
Proof.
  induction l as [|y l IH]; cbn; [auto|]. intros N [A B]. split; [|apply IH; tauto].
  unfold upd. destruct (Nat.eqb_spec y x); [subst; tauto|exact A].
Qed.

Lemma step_protect s p o G f x : inv s p o G -> stopped p = false -> proper p (f, Protect x) -> hd_error (o (th f)) = Some f ->
  exists s', protect th s f x = Ok s' /\ inv s' (sp_step p (f, Protect x)) (put o (th f) (o (th f))) G.
Proof.
  intros V ST (_ & FR) C.
  destruct (hd_G _ _ _ _ _ V C) as (k & r & R & E & A & _).
  assert (IK : In k (fl p f)) by (apply act_in; rewrite A; now left).
  destruct (change s p o G f (cons x) (upd (below s) x (bps k)) (log p) V C k r A) as (n & L & V').
  - intros h y I0 _. apply okb_upd; [eapply FR; eauto|]. eapply i_ok; eauto.
  - cbn. split; [unfold upd; now rewrite Nat.eqb_refl|]. apply okb_upd; [eapply FR; eauto|]. eapply i_ok; eauto.
  - unfold protect. rewrite (i_cur _ _ _ _ V), E. cbn [top snd]. rewrite (rd_ok _ _ _ L). cbn [bind alive owner next prot].
    rewrite wr_ok by (apply nth_error_Some; congruence). cbn [bind].
    eexists. split; [reflexivity|]. cbn [sp_step]. rewrite ST.
    eapply inv_o; [|apply o_same]. rewrite (i_tr _ _ _ _ V), (i_over _ _ _ _ V), ST. rewrite ST in V'. exact V'.
Qed.

Lemma step_unprotect s p o G f x : inv s p o G -> stopped p = false -> proper p (f, Unprotect x) -> hd_error (o (th f)) = Some f ->
  exists s', unprotect th s f x = Ok s' /\ inv s' (sp_step p (f, Unprotect x)) (put o (th f) (o (th f))) G.
Proof.
  intros V ST (k' & r' & A' & HX) C.
  destruct (hd_G _ _ _ _ _ V C) as (k & r & R & E & A & _).
  rewrite A in A'. injection A' as <- <-.
  assert (IK : In k (fl p f)) by (apply act_in; rewrite A; now left).
  assert (BK := i_ok _ _ _ _ V _ _ IK).
  assert (BX : below s x = tl (bps k) /\ okb (below s) (tl (bps k))).
  { destruct (bps k) as [|y l]; [discriminate|]. injection HX as ->. exact BK. }
  destruct (change s p o G f (@tl nat) (below s) (log p) V C k r A) as (n & L & V').
  - intros h y I0 _. eapply i_ok; eauto.
  - tauto.
  - unfold unprotect. rewrite (i_cur _ _ _ _ V), E. cbn [top snd]. rewrite (rd_ok _ _ _ L). cbn [bind alive owner next prot].
    rewrite wr_ok by (apply nth_error_Some; congruence). cbn [bind]. rewrite (proj1 BX).
    eexists. split; [reflexivity|]. cbn [sp_step]. rewrite ST.
    eapply inv_o; [|apply o_same]. rewrite (i_tr _ _ _ _ V), (i_over _ _ _ _ V), ST. rewrite ST in V'. exact V'.
Qed.

Lemma step_enter s p o G f : inv s p o G -> stopped p = false ->
  exists s', enter th s f = Ok s' /\
    inv s' (sp_step p (f, Enter)) (put o (th f) (f :: o (th f))) (put G (th f) ((f, length (heap s)) :: G (th f))).
Proof.
  intros V ST. unfold enter. eexists. split; [reflexivity|]. cbn [sp_step]. rewrite ST.
  assert (LTF := fun g k => live_lt s p o G g k V).
  assert (GF : forall t g b, In (g, b) (G t) -> exists k, In k (fl p g) /\ bid k = b).
  { intros t g b I0. assert (T := i_th _ _ _ _ V _ _ _ I0). subst t. apply of_in in I0.
    rewrite <- (i_act _ _ _ _ V) in I0. apply in_map_iff in I0 as (k & E & I0). exists k. split; [now apply act_in|exact E]. }
  destruct V. constructor; cbn [heap cur frames below over tr fl count stopped log]; auto.
  - intro t. unfold put. destruct (Nat.eqb_spec t (th f)) as [-> |]; [cbn; now rewrite i_o0|auto].
  - intro g. unfold put at 1. destruct (Nat.eqb_spec g f) as [-> |Q].
    + rewrite put_same, of_cons_same. cbn. rewrite i_len0. f_equal. apply i_act0.
    + rewrite i_act0. unfold put. destruct (Nat.eqb_spec (th g) (th f)) as [H|H]; [|reflexivity].
      rewrite of_cons_other by auto. now rewrite H.
  - intro g. unfold upd, put. destruct (Nat.eqb_spec g f) as [-> |Q]; [|auto]. cbn. now rewrite i_fr0, i_len0.
  - intro t.
    assert (K : chain (heap s ++ [mkC f (cur s (th f)) [] true]) (G t)).
    { eapply chain_ext; [|apply i_ch0]. intros g b I0. destruct (GF _ _ _ I0) as (k & I1 & <-).
      unfold nxt. now rewrite nth_error_app1 by eauto. }
    unfold put. destruct (Nat.eqb_spec t (th f)) as [-> |]; [|exact K].
    cbn. split; [|exact K]. unfold nxt. rewrite nth_error_app2, Nat.sub_diag by lia. cbn. apply i_cur0.
  - intro t. unfold upd, put. destruct (Nat.eqb_spec t (th f)); [reflexivity|auto].
  - intros t g b. unfold put. destruct (Nat.eqb_spec t (th f)) as [-> |]; [|eauto].
    intros [[= <- <-]|I0]; [reflexivity|eauto].
  - intros g k. unfold put.
    assert (K : In k (fl p g) -> exists n, nth_error (heap s ++ [mkC f (cur s (th f)) [] true]) (bid k) = Some (mkC g n (bps k) true)).
    { intro I0. rewrite nth_error_app1 by eauto. eauto. }
    destruct (Nat.eqb_spec g f) as [-> |]; [|exact K].
    intros [<- |I0]; [|auto]. cbn. rewrite i_len0, nth_error_app2, Nat.sub_diag by lia. eexists. reflexivity.
  - intro g. unfold put. destruct (Nat.eqb_spec g f) as [-> |]; [|auto]. cbn. constructor; [|auto].
    intro I0. apply in_map_iff in I0 as (k & E & I0). apply LTF in I0. lia.
  - intros g k. unfold put. destruct (Nat.eqb_spec g f) as [-> |]; [|eauto].
    intros [<- |I0]; [exact Logic.I|eauto].
  - rewrite app_length, i_len0. cbn. lia.
  - now rewrite i_over0.
Qed.

(* a block k of f, the latest of its thread, is no longer active *)
Lemma pop s p o G f k : inv s p o G -> hd_error (o (th f)) = Some f -> hd_error (fl p f) = Some k -> bfin k = false ->
  exists R r, G (th f) = (f, bid k) :: R /\ cur s (th f) = Some (bid k) /\ nxt (heap s) (bid k) = top R /\ fl p f = k :: r /\
    (forall t g b, In (g, b) (put G (th f) R t) -> In (g, b) (G t)) /\
    (forall g, of g (put G (th f) R (th g)) = if g =? f then map bid (active r) else of g (G (th g))) /\
    (forall t, chain (heap s) (put G (th f) R t)) /\
    (forall t, map fst (put G (th f) R t) = put o (th f) (tl (o (th f))) t) /\
    (forall t, upd (cur s) (th f) (top R) t = top (put G (th f) R t)).
Proof.
  intros V C HK NF.
  destruct (hd_G _ _ _ _ _ V C) as (k0 & r0 & R & E & A & A').
  destruct (fl p f) as [|k1 r] eqn:EF; [discriminate|]. injection HK as ->.
  cbn in A. rewrite NF in A. cbn in A. injection A as <- A.
  pose proof (i_ch _ _ _ _ V (th f)) as CH. rewrite E in CH. cbn in CH.
  exists R, r. split; [exact E|]. split; [rewrite (i_cur _ _ _ _ V), E; reflexivity|]. split; [tauto|]. split; [reflexivity|].
  split; [|split; [|split; [|split]]].
  - intros t g b. unfold put. destruct (Nat.eqb_spec t (th f)) as [-> |]; [|auto]. rewrite E. now right.
  - intro g. destruct (Nat.eqb_spec g f) as [-> |Q].
    + rewrite put_same. unfold active. now rewrite A, A'.
    + unfold put. destruct (Nat.eqb_spec (th g) (th f)) as [H|H]; [|reflexivity].
      rewrite H, E, of_cons_other by auto. reflexivity.
  - intro t. unfold put. destruct (Nat.eqb_spec t (th f)) as [-> |]; [tauto|apply (i_ch _ _ _ _ V)].
  - intro t. unfold put. destruct (Nat.eqb_spec t (th f)) as [-> |]; [|apply (i_o _ _ _ _ V)].
    rewrite <- (i_o _ _ _ _ V), E. reflexivity.
  - intro t. unfold put, upd. destruct (Nat.eqb_spec t (th f)); [reflexivity|apply (i_cur _ _ _ _ V)].
Qed.

Lemma step_final s p o G f : inv s p o G -> stopped p = false -> proper p (f, Final) -> hd_error (o (th f)) = Some f ->
  exists s' G', final th s f = Ok s' /\ inv s' (sp_step p (f, Final)) (put o (th f) (tl (o (th f)))) G'.
Proof.
  intros V ST (k & r & EF & NF) C.
  destruct (pop _ _ _ _ _ k V C) as (R & r' & E & EC & EN & EF' & P1 & P2 & P3 & P4 & P5); [now rewrite EF|exact NF|].
  rewrite EF in EF'. injection EF' as <-.
  destruct (i_live _ _ _ _ V f k) as (n & L); [rewrite EF; now left|].
  unfold final. rewrite (i_fr _ _ _ _ V), EF. cbn [map]. rewrite (rd_ok _ _ _ L). cbn [bind next].
  assert (n = top R). { unfold nxt in EN. rewrite L in EN. exact EN. } subst n.
  eexists _, (put G (th f) R). split; [reflexivity|]. cbn [sp_step]. rewrite ST, EF.
  destruct V. constructor; cbn [heap cur frames below over tr fl count stopped log]; auto.
  - intro g. rewrite P2. unfold put. destruct (Nat.eqb_spec g f) as [-> |]; [reflexivity|auto].
  - intro g. unfold put. destruct (Nat.eqb_spec g f) as [-> |]; [|auto]. rewrite i_fr0, EF. reflexivity.
  - intros t g b I0. apply P1 in I0. eauto.
  - intros g x. unfold put. destruct (Nat.eqb_spec g f) as [-> |]; [|eauto].
    intros [<- |I0]; cbn; [exists (top R); exact L|]. apply i_live0. rewrite EF. now right.
  - intro g. unfold put. destruct (Nat.eqb_spec g f) as [-> |]; [|auto]. specialize (i_nd0 f). rewrite EF in i_nd0. exact i_nd0.
  - intros g x. unfold put. destruct (Nat.eqb_spec g f) as [-> |]; [|eauto].
    intros [<- |I0]; cbn; apply (i_ok0 f); rewrite EF; [now left|now right].
  - now rewrite i_over0.
Qed.

Lemma step_leave s p o G f : inv s p o G -> stopped p = false -> proper p (f, Leave) -> in_turn p (o (th f)) (f, Leave) ->
  exists s' G', leave th s f = Ok s' /\ inv s' (sp_step p (f, Leave)) (put o (th f) (ord_step p (o (th f)) (f, Leave))) G'.
Proof.
  intros V ST PR C. cbn in PR, C.
  destruct (fl p f) as [|k r] eqn:EF; [congruence|]. clear PR.
  destruct (i_live _ _ _ _ V f k) as (n & L); [rewrite EF; now left|].
  assert (LT : bid k < length (heap s)) by (apply nth_error_Some; congruence).
  assert (ND : ~ In (bid k) (map bid r) /\ NoDup (map bid r)).
  { pose proof (i_nd _ _ _ _ V f) as D. rewrite EF in D. inversion D; auto. }
  unfold leave. rewrite (i_fr _ _ _ _ V), EF. cbn [map]. rewrite (rd_ok _ _ _ L). cbn [bind next owner prot].
  rewrite wr_ok by exact LT. cbn [bind]. set (h' := set_nth _ _ _).
  assert (LIVE : forall g x, In x (put (fl p) f r g) -> exists n, nth_error h' (bid x) = Some (mkC g n (bps x) true)).
  { intros g x. unfold put. destruct (Nat.eqb_spec g f) as [-> |Q]; intro I0; unfold h'.
    - rewrite set_nth_other; [eapply i_live; eauto; rewrite EF; now right|].
      intro B. apply (proj1 ND). rewrite B. now apply in_map.
    - rewrite set_nth_other; [eapply i_live; eauto|].
      intro B. apply Q. symmetry. eapply own; [exact V| |exact I0|exact B]. rewrite EF. now left. }
  assert (IN : forall g x, In x (put (fl p) f r g) -> In x (fl p g)).
  { intros g x. unfold put. destruct (Nat.eqb_spec g f) as [-> |]; [|auto]. rewrite EF. now right. }
  assert (NDA : forall g, NoDup (map bid (put (fl p) f r g))).
  { intro g. unfold put. destruct (Nat.eqb_spec g f); [tauto|apply (i_nd _ _ _ _ V)]. }
  assert (NX : forall x, nxt h' x = nxt (heap s) x) by (intro x; eapply nxt_set; [exact L|reflexivity]).
  cbn [ord_step sp_step]. rewrite ST, EF. cbn [tl].
  destruct (bfin k) eqn:FK.
  - (* already in its finally part: nothing is current any more *)
    assert (NC : cur s (th f) <> Some (bid k)).
    { rewrite (i_cur _ _ _ _ V). destruct (G (th f)) as [|(g & b) R] eqn:EG; [discriminate|]. cbn. intros [= B]. subst b.
      assert (I0 : In (g, bid k) (G (th f))) by (rewrite EG; now left).
      pose proof (i_th _ _ _ _ V _ _ _ I0) as T. rewrite <- T in I0. apply of_in in I0.
      rewrite <- (i_act _ _ _ _ V) in I0. apply in_map_iff in I0 as (k' & B & I0).
      pose proof (act_in _ _ I0) as I1.
      assert (f = g) by (eapply own; [exact V| |exact I1|symmetry; exact B]; rewrite EF; now left). subst g.
      rewrite EF in I0. cbn in I0. rewrite FK in I0. cbn in I0. apply act_in in I0.
      apply (proj1 ND). rewrite <- B. now apply in_map. }
    assert (EC : match cur s (th f) with Some d => if d =? bid k then upd (cur s) (th f) n else cur s | None => cur s end = cur s).
    { destruct (cur s (th f)) as [d|]; [|reflexivity]. destruct (Nat.eqb_spec d (bid k)); [congruence|reflexivity]. }
    rewrite EC. eexists _, G. split; [reflexivity|].
    eapply inv_o; [|apply o_same].
    destruct V. constructor; cbn [heap cur frames below over tr fl count stopped log]; auto.
    + intro g. rewrite <- i_act0. unfold put. destruct (Nat.eqb_spec g f) as [-> |]; [|reflexivity].
      rewrite EF. cbn. now rewrite FK.
    + intro g. unfold upd, put. destruct (Nat.eqb_spec g f); auto.
    + intro t. eapply chain_ext; [|apply i_ch0]. intros; apply NX.
    + intros g x I0. apply IN in I0. eauto.
    + unfold h'. now rewrite set_nth_length.
    + now rewrite i_over0.
  - destruct (pop _ _ _ _ _ k V C) as (R & r' & E & EC & EN & EF' & P1 & P2 & P3 & P4 & P5); [now rewrite EF|exact FK|].
    rewrite EF in EF'. injection EF' as <-.
    assert (n = top R). { unfold nxt in EN. rewrite L in EN. exact EN. } subst n.
    rewrite EC, Nat.eqb_refl. eexists _, (put G (th f) R). split; [reflexivity|].
    destruct V. constructor; cbn [heap cur frames below over tr fl count stopped log]; auto.
    + intro g. rewrite P2. unfold put. destruct (Nat.eqb_spec g f) as [-> |]; [reflexivity|auto].
    + intro g. unfold upd, put. destruct (Nat.eqb_spec g f); auto.
    + intro t. eapply chain_ext; [|apply P3]. intros; apply NX.
    + intros t g b I0. apply P1 in I0. eauto.
    + intros g x I0. apply IN in I0. eauto.
    + unfold h'. now rewrite set_nth_length.
    + now rewrite i_over0.
Qed.

Lemma stop_run l s : over s = true -> run th s l = Ok s.
Proof. intro O. induction l as [|(f & a) l IH]; cbn; [auto|]. rewrite O. cbn. exact IH. Qed.
Lemma stop_sp l p : stopped p = true -> fold_left sp_step l p = p.
Proof. intro O. induction l as [|(f & a) l IH]; cbn; [auto|]. now rewrite O. Qed.

Lemma run_inv l : forall s p o G, inv s p o G -> nested th p o l ->
  exists s', run th s l = Ok s' /\ tr s' = log (fold_left sp_step l p) /\ over s' = stopped (fold_left sp_step l p).
Proof.
  induction l as [|(f & a) l IH]; intros s p o G V N.
  - exists s. cbn. split; [auto|]. split; [apply (i_tr _ _ _ _ V)|apply (i_over _ _ _ _ V)].
  - destruct (stopped p) eqn:ST.
    + exists s. rewrite stop_run by (rewrite (i_over _ _ _ _ V); exact ST). rewrite stop_sp by exact ST.
      split; [auto|]. split; [apply (i_tr _ _ _ _ V)|apply (i_over _ _ _ _ V)].
    + cbn [nested] in N. rewrite ST in N. destruct N as [N|(PR & TU & N)]; [discriminate|]. cbn [fst] in TU, N.
      cbn [run fold_left]. unfold step. rewrite (i_over _ _ _ _ V), ST.
      destruct a as [|e| | |x|x].
      * destruct (step_enter _ _ _ _ f V ST) as (s' & E & V'). rewrite E. cbn [bind]. eapply IH; [exact V'|exact N].
      * destruct (step_throw _ _ _ _ f e V ST TU) as (s' & E & V'). rewrite E. cbn [bind]. eapply IH; [exact V'|exact N].
      * destruct (step_final _ _ _ _ f V ST PR TU) as (s' & G' & E & V'). rewrite E. cbn [bind]. eapply IH; [exact V'|exact N].
      * destruct (step_leave _ _ _ _ f V ST PR TU) as (s' & G' & E & V'). rewrite E. cbn [bind]. eapply IH; [exact V'|exact N].
      * destruct (step_protect _ _ _ _ f x V ST PR TU) as (s' & E & V'). rewrite E. cbn [bind]. eapply IH; [exact V'|exact N].
      * destruct (step_unprotect _ _ _ _ f x V ST PR TU) as (s' & E & V'). rewrite E. cbn [bind]. eapply IH; [exact V'|exact N].
Qed.

Lemma track_sp l : forall po, fst (fold_left (track th) l po) = fold_left sp_step l (fst po).
Proof. induction l as [|a l IH]; intro po; [reflexivity|]. cbn. now rewrite IH. Qed.

Lemma run_track l : forall s p o G, inv s p o G -> nested th p o l -> stopped (fold_left sp_step l p) = false ->
  exists s' G', run th s l = Ok s' /\ inv s' (fold_left sp_step l p) (snd (fold_left (track th) l (p, o))) G'.
Proof.
  induction l as [|(f & a) l IH]; intros s p o G V N LS.
  - exists s, G. auto.
  - destruct (stopped p) eqn:ST; [rewrite stop_sp in LS by exact ST; congruence|].
    cbn [nested] in N. rewrite ST in N. destruct N as [N|(PR & TU & N)]; [discriminate|]. cbn [fst] in TU, N.
    cbn [run fold_left] in *. unfold step. rewrite (i_over _ _ _ _ V), ST. unfold track at 2. cbn [fst snd].
    destruct a as [|e| | |x|x].
    + destruct (step_enter _ _ _ _ f V ST) as (s' & E & V'). rewrite E. cbn [bind]. eapply IH; [exact V'|exact N|exact LS].
    + destruct (step_throw _ _ _ _ f e V ST TU) as (s' & E & V'). rewrite E. cbn [bind]. eapply IH; [exact V'|exact N|exact LS].
    + destruct (step_final _ _ _ _ f V ST PR TU) as (s' & G' & E & V'). rewrite E. cbn [bind]. eapply IH; [exact V'|exact N|exact LS].
    + destruct (step_leave _ _ _ _ f V ST PR TU) as (s' & G' & E & V'). rewrite E. cbn [bind]. eapply IH; [exact V'|exact N|exact LS].
    + destruct (step_protect _ _ _ _ f x V ST PR TU) as (s' & E & V'). rewrite E. cbn [bind]. eapply IH; [exact V'|exact N|exact LS].
    + destruct (step_unprotect _ _ _ _ f x V ST PR TU) as (s' & E & V'). rewrite E. cbn [bind]. eapply IH; [exact V'|exact N|exact LS].
Qed.

(* where the exception of any flow goes after such a schedule: to the latest block of its thread, whoever is in it *)
Lemma where_ l : nested th sp0 none_open l -> stopped (sp_run l) = false ->
  exists s, run th init l = Ok s /\ forall f,
    match opened th l (th f) with
    | [] => target th s f = Ok None
    | g :: _ => exists k r, active (fl (sp_run l) g) = k :: r /\ target th s f = Ok (Some (g, bid k))
    end.
Proof.
  intros N ST. destruct (run_track l _ _ _ _ inv0 N ST) as (s & G & E & V). exists s. split; [exact E|].
  intro f. unfold opened. set (o := snd _) in *.
  destruct (o (th f)) as [|g r] eqn:EO.
  - unfold target. rewrite (i_cur _ _ _ _ V). rewrite <- (i_o _ _ _ _ V) in EO. apply map_eq_nil in EO. now rewrite EO.
  - assert (TG : th g = th f).
    { pose proof (i_o _ _ _ _ V (th f)) as K. rewrite EO in K. destruct (G (th f)) as [|(g' & b) R] eqn:EG; [discriminate|].
      cbn in K. injection K as -> _. eapply i_th; [exact V|]. rewrite EG. now left. }
    assert (HD : hd_error (o (th g)) = Some g) by (rewrite TG, EO; reflexivity).
    destruct (hd_G _ _ _ _ _ V HD) as (k & r' & R & EG & A & _). exists k, r'. split; [exact A|].
    unfold target. rewrite (i_cur _ _ _ _ V), <- TG, EG. cbn [top snd].
    destruct (i_live _ _ _ _ V g k) as (n & L); [apply act_in; rewrite A; now left|].
    rewrite (rd_ok _ _ _ L). reflexivity.
Qed.

Lemma nested_ok l : nested th sp0 none_open l ->
  exists s, run th init l = Ok s /\ tr s = log (sp_run l) /\ over s = stopped (sp_run l).
Proof. intro N. exact (run_inv l _ _ _ _ inv0 N). Qed.
End P.

(* ---- Schedules for which it goes wrong ---- *)
Definition one (f : nat) : nat := 0.

(* a task without a block throws while another task of its thread is in one: the exception is the other's *)
Lemma foreign e : exists s, run one init [(1, Enter)] = Ok s /\ fl (sp_run [(1, Enter)]) 2 = [] /\
  target one s 2 = Ok (Some (1, 0)) /\ step one s (2, Throw e) = Exn.
Proof. eexists. split; [cbv; reflexivity|]. repeat split. Qed.

(* two tasks in blocks: the exception of the first goes to the second's, and so do its protections *)
Lemma inner_ e x : exists s, run one init [(1, Enter); (2, Enter); (1, Protect x)] = Ok s /\
  target one s 1 = Ok (Some (2, 1)) /\ step one s (1, Throw e) = Exn /\
  exists s', step one s (2, Throw e) = Ok s' /\ tr s' = [Got 2 1 e [x]] /\
    log (sp_run [(1, Enter); (2, Enter); (1, Protect x); (2, Throw e)]) = [Got 2 1 e []].
Proof.
  eexists. split; [cbv; reflexivity|]. split; [reflexivity|]. split; [reflexivity|].
  eexists. split; [cbv; reflexivity|]. split; reflexivity.
Qed.

(* the first to enter leaves first: when both have left, the current context is the first's dead stack frame *)
Lemma dangling f e : exists s, run one init [(1, Enter); (2, Enter); (1, Leave); (2, Leave)] = Ok s /\
  (forall g, frames s g = []) /\ target one s f = UB /\ step one s (f, Throw e) = UB.
Proof.
  eexists. split; [reflexivity|]. split; [|split; reflexivity].
  intro g. cbn -[upd Nat.eqb]. unfold upd. destruct (g =? 2); [reflexivity|]. destruct (g =? 1); [reflexivity|]. reflexivity.
Qed.

(* the first comes to its finally part: the second, still in its block, throws and the program ends *)
Lemma ended e : exists s, run one init [(1, Enter); (2, Enter); (1, Final); (2, Throw e)] = Ok s /\
  tr s = [Ended 2 e] /\ over s = true /\
  log (sp_run [(1, Enter); (2, Enter); (1, Final); (2, Throw e)]) = [Got 2 1 e []].
Proof. eexists. split; [cbv; reflexivity|]. repeat split. Qed.

Lemma dangling_protect f x : exists s, run one init [(1, Enter); (2, Enter); (1, Leave); (2, Leave)] = Ok s /\
  step one s (f, Protect x) = UB /\ step one s (f, Unprotect x) = UB.
Proof. eexists. split; [reflexivity|]. split; reflexivity. Qed.
