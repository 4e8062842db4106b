From Verif Require Import Base DequeModel DequeConcModel.

(* ---- Specification: a FIFO queue replaying the history ---- *)
Definition replay1 (l : option (list Z)) (e : event) : option (list Z) :=
  match l, e with
  | Some l, Pushed _ w => Some (l ++ [w])
  | Some (y :: r), Got _ x => if (x =? y)%Z then Some r else None
  | Some [], SawEmpty _ => Some []
  | Some l, Aborted _ => Some l
  | _, _ => None
  end.
Definition replay (log : list event) : option (list Z) := fold_left replay1 log (Some []).
Definition pushed (log : list event) : list Z :=
  flat_map (fun e => match e with Pushed _ w => [w] | _ => [] end) log.
Definition got (log : list event) : list Z :=
  flat_map (fun e => match e with Got _ x => [x] | _ => [] end) log.

(* only thread [o] pushes, nobody takes *)
Definition allowed (o : nat) (l : label) : Prop :=
  match l with LPush i _ => i = o | LTake _ => False | _ => True end.

(* ---- invariant ---- *)
Definition holds (ar : list arr) (a i : nat) (v : Z) : Prop :=
  exists A, nth_error ar a = Some A /\ nth_error (abuf A) (Nat.modulo i (length (abuf A))) = Some v.
Definition full_of (s : st) (h : list Z) (a : nat) (room : nat) : Prop :=
  exists A, nth_error (arrs s) a = Some A /\ alive A = true /\ 1 <= length (abuf A) /\
    bot s - top s + room <= length (abuf A) /\
    forall i v, top s <= i < bot s -> nth_error h i = Some v ->
      nth_error (abuf A) (Nat.modulo i (length (abuf A))) = Some v.

Definition tinv (o : nat) (s : st) (h : list Z) (i : nat) (p : pc) : Prop :=
  match p with
  | Idle | SL => True
  | PL _ => i = o
  | PT _ b => i = o /\ b = bot s
  | PA _ b t => i = o /\ b = bot s /\ t <= top s
  | RA _ b => i = o /\ b = bot s
  | RT _ b a => i = o /\ b = bot s /\ a = cur s
  | RB _ b a t => i = o /\ b = bot s /\ a = cur s /\ t <= top s /\
      (exists A, nth_error (arrs s) a = Some A /\ bot s - t <= length (abuf A))
  | RC _ b a t b2 => i = o /\ b = bot s /\ a = cur s /\ t <= top s /\ b2 = bot s /\
      (exists A, nth_error (arrs s) a = Some A /\ bot s - t <= length (abuf A))
  | RS _ b a n => i = o /\ b = bot s /\ a = cur s /\ n <> a /\ full_of s h n 1
  | RF _ b a => i = o /\ b = bot s /\ a <> cur s /\ full_of s h (cur s) 1 /\
      (exists A, nth_error (arrs s) a = Some A /\ alive A = true)
  | PR _ b => i = o /\ b = bot s /\ full_of s h (cur s) 1
  | PS _ b a => i = o /\ b = bot s /\ a = cur s /\ full_of s h (cur s) 1
  | PB w b => i = o /\ b = bot s /\ full_of s h (cur s) 1 /\ holds (arrs s) (cur s) b w
  | SB t => t <= top s
  | SA t => t <= top s /\ t < bot s
  | SR t a => t <= top s /\ t < bot s /\ a < length (arrs s) /\
      (top s = t -> forall v, nth_error h t = Some v -> holds (arrs s) a t v)
  | SX t x => t <= top s /\ t < bot s /\ (top s = t -> nth_error h t = Some x)
  | _ => False
  end.

Record Inv (o : nat) (s : st) : Prop := {
  i_le : top s <= bot s;
  i_len : length (pushed (log s)) = bot s;
  i_got : got (log s) = firstn (top s) (pushed (log s));
  i_replay : replay (log s) = Some (skipn (top s) (pushed (log s)));
  i_cur : full_of s (pushed (log s)) (cur s) 0;
  i_thr : forall i p, nth_error (thr s) i = Some p -> tinv o s (pushed (log s)) i p }.

Lemma init_inv o size threads : 1 <= size -> Inv o (init size threads).
Proof.
  intros H. constructor; cbn [init top bot log pushed got flat_map length firstn skipn]; auto.
  - eexists; split; [reflexivity|]. cbn. rewrite repeat_length. repeat split; auto; lia.
  - intros i p E. cbn [thr init] in E. apply nth_error_In, repeat_spec in E. subst. exact I.
Qed.

Lemma pushed_app a b : pushed (a ++ b) = pushed a ++ pushed b.
Proof. apply flat_map_app. Qed.
Lemma got_app a b : got (a ++ b) = got a ++ got b.
Proof. apply flat_map_app. Qed.
Lemma replay_app a e : replay (a ++ [e]) = replay1 (replay a) e.
Proof. unfold replay. now rewrite fold_left_app. Qed.

(* ---- modular arithmetic ---- *)
Lemma mod_neq a b n : a < b < a + n -> Nat.modulo a n <> Nat.modulo b n.
Proof.
  intros H E. assert (Hn : n <> 0) by lia.
  pose proof (Nat.div_mod a n Hn). pose proof (Nat.div_mod b n Hn).
  rewrite E in *. destruct (Nat.lt_trichotomy (a / n) (b / n)) as [L|[L|L]]; nia.
Qed.

Lemma idx_ok i n : 1 <= n -> idx i n = Ok (Nat.modulo i n) /\ Nat.modulo i n < n.
Proof.
  intros H. unfold idx. destruct (Nat.eqb_spec n 0); [lia|]. split; auto. now apply Nat.mod_upper_bound.
Qed.

Lemma copy_spec n : forall i old new, 1 <= length old -> n <= length new -> 1 <= length new ->
  exists new', copy n i old new = Ok new' /\ length new' = length new /\
    (forall k, k < n -> nth_error new' (Nat.modulo (i + k) (length new)) =
                        nth_error old (Nat.modulo (i + k) (length old))) /\
    (forall j, (forall k, k < n -> j <> Nat.modulo (i + k) (length new)) ->
               nth_error new' j = nth_error new j).
Proof.
  induction n as [|n IH]; intros i old new Ho Hn Hne; cbn [copy].
  - exists new. repeat split; auto. intros; lia.
  - destruct (idx_ok i _ Ho) as [-> L1]. cbn [bind].
    destruct (nth_error old (Nat.modulo i (length old))) as [x|] eqn:Hx;
      [|apply nth_error_None in Hx; lia].
    rewrite (rd_ok _ _ _ Hx). cbn [bind].
    destruct (idx_ok i _ Hne) as [-> L2]. cbn [bind]. rewrite wr_ok by auto. cbn [bind].
    destruct (IH (S i) old (set_nth (Nat.modulo i (length new)) x new)) as (new' & E & L & C & U);
      rewrite ?set_nth_length; try lia.
    rewrite set_nth_length in L, C, U.
    exists new'. split; [exact E|]. split; [exact L|]. split.
    + intros [|k] Hk.
      * rewrite Nat.add_0_r, U.
        -- rewrite set_nth_same by auto. auto.
        -- intros k Hk'. apply mod_neq. lia.
      * specialize (C k ltac:(lia)). replace (i + S k) with (S i + k) by lia. exact C.
    + intros j Hj. rewrite U.
      * rewrite set_nth_other; auto. specialize (Hj 0 ltac:(lia)). rewrite Nat.add_0_r in Hj. auto.
      * intros k Hk. specialize (Hj (S k) ltac:(lia)). replace (S i + k) with (i + S k) by lia. exact Hj.
Qed.

(* ---- stability ---- *)
(* a step that only moves thread [i] to [p] *)
Lemma tinv_ext o s s' h i p :
  top s' = top s -> bot s' = bot s -> cur s' = cur s -> arrs s' = arrs s ->
  tinv o s h i p -> tinv o s' h i p.
Proof.
  intros E1 E2 E3 E4. unfold tinv, full_of. rewrite E1, E2, E3, E4. auto.
Qed.

Lemma full_ext s s' h a r :
  top s' = top s -> bot s' = bot s -> arrs s' = arrs s -> full_of s h a r -> full_of s' h a r.
Proof. intros E1 E2 E3. unfold full_of. rewrite E1, E2, E3. auto. Qed.

Lemma full_top s s' h a r :
  top s <= top s' -> bot s' = bot s -> arrs s' = arrs s -> full_of s h a r -> full_of s' h a r.
Proof.
  intros E1 E2 E3 (A & Ha & Al & H1 & Hr & Hc). exists A. rewrite E3. repeat split; auto; try lia.
  intros i v Hi. apply Hc. lia.
Qed.

Lemma tinv_top o s s' h i p :
  top s <= top s' -> top s' <= bot s -> bot s' = bot s -> cur s' = cur s -> arrs s' = arrs s ->
  tinv o s h i p -> tinv o s' h i p.
Proof.
  intros E1 E1' E2 E3 E4.
  pose proof (fun a r => full_top s s' h a r E1 E2 E4) as F.
  destruct p; cbn [tinv]; rewrite ?E2, ?E3, ?E4; intros H; auto;
    try (intuition (auto; lia)).
  all: repeat match goal with H : _ /\ _ |- _ => destruct H end.
  all: repeat split; auto; try lia.
  all: try (intros E; match goal with H : _ = _ -> _ |- _ => apply H; lia end).
Qed.

(* what the producer does is harmless for a stealing thread *)
Lemma tinv_thief o s s' h h' j p : j <> o ->
  top s' = top s -> bot s <= bot s' ->
  (forall t, t < bot s -> nth_error h' t = nth_error h t) ->
  length (arrs s) <= length (arrs s') ->
  (forall a t v, top s = t -> t < bot s -> holds (arrs s) a t v -> holds (arrs s') a t v) ->
  tinv o s h j p -> tinv o s' h' j p.
Proof.
  intros Hj E1 E2 Eh El Eh2. destruct p; cbn [tinv]; rewrite ?E1; intros H; auto;
    try (destruct H; congruence); try lia.
  - destruct H as (H1 & H2 & H3 & H4). repeat split; auto; try lia.
    intros Et v Hv. rewrite Eh in Hv by auto. auto.
  - destruct H as (H1 & H2 & H3). repeat split; auto; try lia. intros Et. rewrite Eh; auto.
Qed.

Lemma nth_go s i p j q : nth_error (thr (go_to s i p)) j = Some q ->
  (j = i /\ q = p) \/ (j <> i /\ nth_error (thr s) j = Some q).
Proof.
  cbn [go_to thr]. destruct (Nat.eq_dec i j) as [<-|N].
  - destruct (Nat.lt_ge_cases i (length (thr s))) as [L|L].
    + rewrite set_nth_same by auto. intros [= ->]. auto.
    + intros H. assert (i < length (set_nth i p (thr s))) by (apply nth_error_Some; congruence).
      rewrite set_nth_length in *. lia.
  - rewrite set_nth_other by auto. auto.
Qed.

Lemma inv_local o s i p : Inv o s -> tinv o s (pushed (log s)) i p -> Inv o (go_to s i p).
Proof.
  intros [H1 H2 H3 H4 H5 H6] Hp. constructor; auto.
  intros j q Hq. change (log (go_to s i p)) with (log s).
  apply tinv_ext with s; auto. apply nth_go in Hq. destruct Hq as [[-> ->]|[_ Hq]]; auto.
Qed.

(* an event that is neither a push nor a hand-out *)
Lemma inv_finish o s i e : Inv o s ->
  pushed [e] = [] -> got [e] = [] -> replay1 (replay (log s)) e = replay (log s) ->
  Inv o (finish s i e).
Proof.
  intros [H1 H2 H3 H4 H5 H6] Ep Eg Er.
  assert (EP : pushed (log (finish s i e)) = pushed (log s)).
  { cbn [finish log]. now rewrite pushed_app, Ep, app_nil_r. }
  constructor; rewrite ?EP; auto.
  - cbn [finish log top]. rewrite got_app, Eg, app_nil_r. auto.
  - cbn [finish log top]. rewrite replay_app, Er. auto.
  - intros j q Hq. apply tinv_ext with s; auto.
    change (thr (finish s i e)) with (thr (go_to s i Idle)) in Hq.
    apply nth_go in Hq. destruct Hq as [[-> ->]|[_ Hq]]; [exact I|auto].
Qed.

Lemma skipn_nth (l : list Z) : forall n x, nth_error l n = Some x -> skipn n l = x :: skipn (S n) l.
Proof.
  induction l as [|y l IH]; intros [|n] x E; try discriminate.
  - injection E as ->. reflexivity.
  - exact (IH n x E).
Qed.
Lemma firstn_nth (l : list Z) : forall n x, nth_error l n = Some x -> firstn (S n) l = firstn n l ++ [x].
Proof.
  induction l as [|y l IH]; intros [|n] x E; try discriminate.
  - injection E as ->. reflexivity.
  - rewrite !firstn_cons. rewrite (IH n x E). reflexivity.
Qed.

Lemma inv_got o s i x : Inv o s -> top s < bot s -> nth_error (pushed (log s)) (top s) = Some x ->
  Inv o (finish (set_top s (top s + 1)) i (Got i x)).
Proof.
  intros [H1 H2 H3 H4 H5 H6] Hlt Hx.
  assert (EP : pushed (log (finish (set_top s (top s + 1)) i (Got i x))) = pushed (log s)).
  { cbn [finish log set_top]. rewrite pushed_app. cbn [pushed flat_map app]. apply app_nil_r. }
  assert (SK : skipn (top s) (pushed (log s)) = x :: skipn (top s + 1) (pushed (log s))).
  { rewrite Nat.add_1_r. now apply skipn_nth. }
  assert (FS : firstn (top s + 1) (pushed (log s)) = firstn (top s) (pushed (log s)) ++ [x]).
  { rewrite Nat.add_1_r. now apply firstn_nth. }
  constructor; rewrite ?EP; cbn [finish set_top log top bot cur]; auto; try lia.
  - rewrite got_app, H3, FS. reflexivity.
  - rewrite replay_app, H4, SK. cbn [replay1]. now rewrite Z.eqb_refl.
  - apply full_top with s; auto. cbn. lia.
  - intros j q Hq.
    change (thr (finish (set_top s (top s + 1)) i (Got i x))) with (thr (go_to s i Idle)) in Hq.
    apply nth_go in Hq. destruct Hq as [[-> ->]|[_ Hq]]; [exact I|].
    apply tinv_top with s; auto; cbn; lia.
Qed.

(* a producer step: shared state changes, thread [o] moves, history unchanged *)
Lemma inv_owner o s s' p : Inv o s ->
  top s' = top s -> bot s' = bot s -> log s' = log s -> thr s' = thr (go_to s o p) ->
  length (arrs s) <= length (arrs s') ->
  (forall a t v, top s = t -> t < bot s -> holds (arrs s) a t v -> holds (arrs s') a t v) ->
  full_of s' (pushed (log s)) (cur s') 0 -> tinv o s' (pushed (log s)) o p -> Inv o s'.
Proof.
  intros [H1 H2 H3 H4 H5 H6] Et Eb El Eth Ea Eh Hf Hp.
  constructor; rewrite ?Et, ?Eb, ?El; auto.
  intros j q Hq. rewrite Eth in Hq. apply nth_go in Hq. destruct Hq as [[-> ->]|[N Hq]]; auto.
  apply tinv_thief with s (pushed (log s)); auto. lia.
Qed.

Lemma holds_ext ar ar' a t v : nth_error ar' a = nth_error ar a -> holds ar a t v -> holds ar' a t v.
Proof. intros E (A & HA & HV). exists A. now rewrite E. Qed.

Lemma get_arr_inv s a buf : get_arr s a = Ok buf ->
  exists A, nth_error (arrs s) a = Some A /\ alive A = true /\ abuf A = buf.
Proof.
  unfold get_arr. destruct (nth_error (arrs s) a) as [A|]; try discriminate.
  destruct (alive A) eqn:E; try discriminate. intros [= <-]. eauto.
Qed.

Lemma step_RC o s w b a t b2 s' : Inv o s -> tinv o s (pushed (log s)) o (RC w b a t b2) ->
  run_pc s o (RC w b a t b2) = Ok s' -> Inv o s'.
Proof.
  intros HI (_ & -> & -> & Ht & -> & (A & HA & Hb)) E. cbn [run_pc] in E.
  pose proof HI as [H1 H2 _ _ (A' & HA' & Al & Sz & Fit & Cell) _].
  rewrite HA in HA'. injection HA' as <-.
  unfold get_arr in E. rewrite HA, Al in E. cbn [bind] in E.
  destruct (copy_spec (bot s - t) t (abuf A) (repeat 0%Z (2 * length (abuf A)))) as (new & EC & L & C & _);
    rewrite ?repeat_length; try lia.
  rewrite EC in E. cbn [bind] in E. injection E as <-. rewrite repeat_length in L, C.
  assert (NA : forall k, k < length (arrs s) ->
     nth_error (arrs s ++ [{| abuf := new; alive := true |}]) k = nth_error (arrs s) k)
    by (intros; now apply nth_error_app1).
  assert (cur s < length (arrs s)) by (apply nth_error_Some; congruence).
  apply inv_owner with s (RS w (bot s) (cur s) (length (arrs s))); auto.
  - cbn. rewrite app_length. lia.
  - cbn. intros a t' v _ _ Hh. pose proof Hh as (B & HB & _).
    apply holds_ext with (arrs s); auto. apply NA. apply nth_error_Some. congruence.
  - exists A. cbn. rewrite NA by auto. repeat split; auto.
  - cbn [tinv]. repeat split; auto; [cbn; lia|].
    exists {| abuf := new; alive := true |}. cbn. rewrite nth_error_app2, Nat.sub_diag by lia.
    repeat split; auto; try lia.
    intros i v Hi Hv. rewrite L. replace i with (t + (i - t)) by lia. rewrite C by lia.
    apply Cell; auto; [lia|]. now replace (t + (i - t)) with i by lia.
Qed.

Lemma step_RS o s w b a n s' : Inv o s -> tinv o s (pushed (log s)) o (RS w b a n) ->
  run_pc s o (RS w b a n) = Ok s' -> Inv o s'.
Proof.
  intros HI (_ & -> & -> & Hn & HF) E. cbn [run_pc] in E. injection E as <-.
  pose proof HI as [H1 H2 _ _ (A & HA & Al & Sz & Fit & Cell) _].
  assert (HF' : full_of (go_to (set_cur s n) o (RF w (bot s) (cur s))) (pushed (log s)) n 1)
    by (apply full_ext with s; auto).
  apply inv_owner with s (RF w (bot s) (cur s)); auto.
  - destruct HF' as (B & HB & Bl & B1 & B2 & B3). exists B. repeat split; auto. lia.
  - cbn [tinv]. repeat split; auto. exists A. auto.
Qed.

Lemma step_RF o s w b a s' : Inv o s -> tinv o s (pushed (log s)) o (RF w b a) ->
  run_pc s o (RF w b a) = Ok s' -> Inv o s'.
Proof.
  intros HI (_ & -> & Hn & HF & (A & HA & Al)) E. cbn [run_pc] in E.
  unfold get_arr in E. rewrite HA, Al in E. cbn [bind] in E. injection E as <-.
  pose proof HI as [H1 H2 _ _ Hc _].
  assert (FE : forall h r, full_of s h (cur s) r -> full_of (go_to
    (set_arrs s (set_nth a {| abuf := abuf A; alive := false |} (arrs s))) o (PR w (bot s))) h (cur s) r).
  { intros h r (B & HB & Hx). exists B. cbn. rewrite set_nth_other by auto. auto. }
  apply inv_owner with s (PR w (bot s)); auto.
  - cbn. now rewrite set_nth_length.
  - cbn. intros a' t v _ _ (B & HB & Hv). destruct (Nat.eq_dec a a') as [<-|N].
    + rewrite HA in HB. injection HB as <-. eexists. rewrite set_nth_same by (apply nth_error_Some; congruence).
      split; [reflexivity|exact Hv].
    + exists B. rewrite set_nth_other by auto. auto.
  - cbn [tinv]. repeat split; auto.
Qed.

Lemma step_PS o s w b a s' : Inv o s -> tinv o s (pushed (log s)) o (PS w b a) ->
  run_pc s o (PS w b a) = Ok s' -> Inv o s'.
Proof.
  intros HI (_ & -> & -> & (A & HA & Al & Sz & Fit & Cell)) E. cbn [run_pc] in E.
  unfold get_arr in E. rewrite HA, Al in E. cbn [bind] in E.
  destruct (idx_ok (bot s) _ Sz) as [EI LI]. rewrite EI in E. cbn [bind] in E.
  rewrite wr_ok in E by auto. cbn [bind] in E. injection E as <-.
  pose proof HI as [H1 H2 _ _ _ _].
  set (B := {| abuf := set_nth (bot s mod length (abuf A)) w (abuf A); alive := true |}).
  assert (HB : nth_error (set_nth (cur s) B (arrs s)) (cur s) = Some B).
  { apply set_nth_same. apply nth_error_Some. congruence. }
  assert (LB : length (abuf B) = length (abuf A)) by apply set_nth_length.
  assert (CB : forall i v, top s <= i < bot s ->
     nth_error (abuf A) (Nat.modulo i (length (abuf A))) = Some v ->
     nth_error (abuf B) (Nat.modulo i (length (abuf B))) = Some v).
  { intros i v Hi Hv. rewrite LB. cbn [abuf B]. rewrite set_nth_other; auto.
    intros X. symmetry in X. revert X. apply mod_neq. lia. }
  assert (FB : full_of (go_to (set_arrs s (set_nth (cur s) B (arrs s))) o (PB w (bot s))) (pushed (log s)) (cur s) 1).
  { exists B. cbn [go_to set_arrs arrs top bot]. repeat split; auto; try lia. }
  apply inv_owner with s (PB w (bot s)); auto.
  - cbn. now rewrite set_nth_length.
  - cbn [go_to set_arrs arrs]. intros a' t v Et Hlt (C & HC & Hv). destruct (Nat.eq_dec (cur s) a') as [<-|N].
    + rewrite HA in HC. injection HC as <-. exists B. split; auto. apply CB; auto. lia.
    + exists C. rewrite set_nth_other by auto. auto.
  - destruct FB as (C & F1 & F2 & F3 & F4 & F5). exists C. repeat split; auto. lia.
  - cbn [tinv]. repeat split; auto. exists B. split; [exact HB|]. rewrite LB. cbn [abuf B].
    now apply set_nth_same.
Qed.

Lemma step_PB o s w b s' : Inv o s -> tinv o s (pushed (log s)) o (PB w b) ->
  run_pc s o (PB w b) = Ok s' -> Inv o s'.
Proof.
  intros HI (_ & -> & (A & HA & Al & Sz & Fit & Cell) & (A' & HA' & Hw)) E. cbn [run_pc] in E.
  injection E as <-. rewrite HA in HA'. injection HA' as <-.
  pose proof HI as [H1 H2 H3 H4 H5 H6].
  set (s' := finish (set_bot s (bot s + 1)) o (Pushed o w)).
  assert (EP : pushed (log s') = pushed (log s) ++ [w]).
  { cbn [s' finish log set_bot]. rewrite pushed_app. reflexivity. }
  constructor; rewrite ?EP; cbn [s' finish set_bot log top bot cur]; auto; try lia.
  - rewrite app_length, H2. cbn [length]. lia.
  - rewrite got_app. cbn [got flat_map]. rewrite app_nil_r, H3, firstn_app.
    replace (top s - length (pushed (log s))) with 0 by lia. cbn [firstn]. now rewrite app_nil_r.
  - rewrite replay_app, H4. cbn [replay1]. rewrite skipn_app.
    replace (top s - length (pushed (log s))) with 0 by lia. now destruct (skipn (top s) (pushed (log s))).
  - exists A. cbn [s' finish set_bot arrs top bot]. repeat split; auto; try lia.
    intros i v Hi Hv. destruct (Nat.eq_dec i (bot s)) as [->|N].
    + rewrite nth_error_app2, H2, Nat.sub_diag in Hv by lia. injection Hv as <-. exact Hw.
    + rewrite nth_error_app1 in Hv by lia. apply Cell; auto. lia.
  - intros j q Hq.
    change (thr s') with (thr (go_to s o Idle)) in Hq.
    apply nth_go in Hq. destruct Hq as [[-> ->]|[N Hq]]; [exact I|].
    apply tinv_thief with s (pushed (log s)); auto; cbn; try lia.
    intros t Lt. apply nth_error_app1. lia.
Qed.

Lemma step_inv o s l s' : Inv o s -> allowed o l -> step s l = Ok s' -> Inv o s'.
Proof.
  intros HI Ha E. pose proof HI as [H1 H2 H3 H4 H5 H6].
  destruct l as [i w|i|i|i]; cbn [step allowed] in *; unfold start in *; [|destruct Ha| |].
  - subst i. destruct (nth_error (thr s) o) as [[]|]; injection E as <-; auto.
    apply inv_local; cbn [tinv]; auto.
  - destruct (nth_error (thr s) i) as [[]|]; injection E as <-; auto.
    apply inv_local; cbn [tinv]; auto.
  - destruct (nth_error (thr s) i) as [p|] eqn:Ep; [|injection E as <-; auto].
    pose proof (H6 i p Ep) as Hp. destruct p; try (destruct Hp; fail).
    + injection E as <-; auto.
    + injection E as <-. apply inv_local; cbn [tinv] in *; auto.
    + injection E as <-. apply inv_local; cbn [tinv] in *; intuition auto.
    + destruct Hp as (-> & -> & Ht). cbn [run_pc] in E.
      destruct H5 as (A & HA & Al & Sz & Fit & Cell). unfold get_arr in E. rewrite HA, Al in E.
      cbn [bind] in E. injection E as <-.
      destruct (Nat.ltb_spec (length (abuf A)) (bot s - t + 1)) as [L|L]; apply inv_local; cbn [tinv]; auto.
      repeat split; auto. exists A. repeat split; auto. lia.
    + injection E as <-. apply inv_local; cbn [tinv] in *; intuition auto.
    + injection E as <-. destruct Hp as (-> & -> & ->). apply inv_local; cbn [tinv] in *; auto.
      repeat split; auto. destruct H5 as (A & HA & _ & _ & Fit & _). exists A. split; auto. lia.
    + injection E as <-. apply inv_local; cbn [tinv] in *; intuition auto.
    + pose proof Hp as [-> _]. eapply step_RC; eauto.
    + pose proof Hp as [-> _]. eapply step_RS; eauto.
    + pose proof Hp as [-> _]. eapply step_RF; eauto.
    + injection E as <-. destruct Hp as (-> & -> & HF). apply inv_local; cbn [tinv]; auto.
    + pose proof Hp as [-> _]. eapply step_PS; eauto.
    + pose proof Hp as [-> _]. eapply step_PB; eauto.
    + injection E as <-. apply inv_local; cbn [tinv] in *; auto.
    + cbn [tinv run_pc] in *. destruct (Nat.ltb_spec t (bot s)) as [L|L]; injection E as <-.
      * apply inv_local; cbn [tinv]; auto.
      * apply inv_finish; auto. rewrite H4. rewrite skipn_all2 by lia. reflexivity.
    + cbn [tinv run_pc] in *. injection E as <-. destruct Hp as [P1 P2].
      apply inv_local; cbn [tinv]; auto. destruct H5 as (A & HA & _ & _ & _ & Cell).
      repeat split; auto; [apply nth_error_Some; congruence|].
      intros Et v Hv. exists A. split; auto. apply Cell; auto. lia.
    + cbn [tinv run_pc] in *. destruct Hp as (P1 & P2 & P3 & P4).
      destruct (get_arr s a) as [buf| | |] eqn:G; try discriminate. cbn [bind] in E.
      apply get_arr_inv in G. destruct G as (A & HA & Al & <-).
      unfold idx in E. destruct (Nat.eqb_spec (length (abuf A)) 0); try discriminate. cbn [bind] in E.
      destruct (rd (abuf A) (Nat.modulo t (length (abuf A)))) as [x| | |] eqn:R; try discriminate.
      cbn [bind] in E. injection E as <-. apply rd_inv in R.
      apply inv_local; cbn [tinv]; auto. repeat split; auto. intros Et.
      destruct (nth_error (pushed (log s)) t) as [v|] eqn:Hv.
      * destruct (P4 Et v eq_refl) as (B & HB & Hx). rewrite HA in HB. injection HB as <-. congruence.
      * apply nth_error_None in Hv. lia.
    + cbn [tinv run_pc] in *. destruct Hp as (P1 & P2 & P3).
      destruct (Nat.eqb_spec (top s) t) as [Et|Nt]; injection E as <-.
      * subst t. apply inv_got; auto.
      * apply inv_finish; auto. rewrite H4. destruct (skipn (top s) (pushed (log s))); reflexivity.
Qed.

Lemma run_inv o ls : forall s s', Inv o s -> Forall (allowed o) ls -> run s ls = Ok s' -> Inv o s'.
Proof.
  induction ls as [|l ls IH]; intros s s' HI HA E; cbn [run] in E.
  - injection E as <-. auto.
  - destruct (step s l) as [s1| | |] eqn:E1; try discriminate. cbn [bind] in E.
    inversion HA; subst. apply (IH s1 s'); auto. eapply step_inv; eauto.
Qed.

(* ---- linearizability ---- *)
Lemma linearizable o size threads ls s : 1 <= size -> Forall (allowed o) ls ->
  run (init size threads) ls = Ok s ->
  replay (log s) = Some (skipn (length (got (log s))) (pushed (log s))) /\
  got (log s) = firstn (length (got (log s))) (pushed (log s)).
Proof.
  intros Hs HA E. destruct (run_inv o ls _ _ (init_inv o size threads Hs) HA E) as [H1 H2 H3 H4 _ _].
  assert (length (got (log s)) = top s) as ->; auto. rewrite H3, firstn_length. lia.
Qed.

Lemma NoDup_app_l (a b : list Z) : NoDup (a ++ b) -> NoDup a.
Proof.
  induction a as [|x a IH]; cbn [app]; intros H; [constructor|].
  inversion H as [|? ? Hx Ht]; subst. constructor; auto. intros Hi. apply Hx, in_or_app. auto.
Qed.

Lemma each_at_most_once o size threads ls s : 1 <= size -> Forall (allowed o) ls ->
  run (init size threads) ls = Ok s -> NoDup (pushed (log s)) ->
  NoDup (got (log s)) /\ incl (got (log s)) (pushed (log s)).
Proof.
  intros Hs HA E HN. destruct (linearizable o size threads ls s Hs HA E) as [_ ->].
  set (k := length (got (log s))). split.
  - rewrite <- (firstn_skipn k) in HN. now apply NoDup_app_l in HN.
  - intros x Hx. rewrite <- (firstn_skipn k). apply in_or_app. auto.
Qed.

(* the only undefined behaviour is a stealer reading a block that is no longer current *)
Lemma ub_is_stale_block o s l : Inv o s -> allowed o l ->
  step s l = UB \/ step s l = Exn \/ step s l = Fuel ->
  exists i t a A, l = LRun i /\ nth_error (thr s) i = Some (SR t a) /\ a <> cur s /\
    nth_error (arrs s) a = Some A /\ (alive A = false \/ length (abuf A) = 0).
Proof.
  intros HI Ha E. pose proof HI as [H1 H2 H3 H4 H5 H6].
  destruct l as [i w|i|i|i]; cbn [step allowed] in *; unfold start in *; [|destruct Ha| |].
  - destruct (nth_error (thr s) i) as [[]|]; intuition discriminate.
  - destruct (nth_error (thr s) i) as [[]|]; intuition discriminate.
  - destruct (nth_error (thr s) i) as [p|] eqn:Ep; [|intuition discriminate].
    pose proof (H6 i p Ep) as Hp. destruct H5 as (A & HA & Al & Sz & Fit & Cell).
    destruct p; cbn [run_pc tinv] in *; try (destruct Hp; fail); try (intuition discriminate).
    + unfold get_arr in E. rewrite HA, Al in E. cbn [bind] in E. intuition discriminate.
    + destruct Hp as (_ & -> & -> & Ht & -> & (B & HB & Hb)). rewrite HA in HB. injection HB as <-.
      unfold get_arr in E. rewrite HA, Al in E. cbn [bind] in E.
      destruct (copy_spec (bot s - t) t (abuf A) (repeat 0%Z (2 * length (abuf A)))) as (new & EC & _);
        rewrite ?repeat_length; try lia.
      rewrite EC in E. cbn [bind] in E. intuition discriminate.
    + destruct Hp as (_ & _ & _ & _ & (B & HB & Bl)). unfold get_arr in E. rewrite HB, Bl in E.
      cbn [bind] in E. intuition discriminate.
    + destruct Hp as (_ & -> & -> & _). unfold get_arr in E. rewrite HA, Al in E. cbn [bind] in E.
      destruct (idx_ok (bot s) _ Sz) as [EI LI]. rewrite EI in E. cbn [bind] in E.
      rewrite wr_ok in E by auto. cbn [bind] in E. intuition discriminate.
    + destruct (Nat.ltb t (bot s)); intuition discriminate.
    + destruct Hp as (P1 & P2 & P3 & P4).
      destruct (nth_error (arrs s) a) as [B|] eqn:HB; [|apply nth_error_None in HB; lia].
      exists i, t, a, B. split; auto. split; auto.
      assert (D : alive B = false \/ length (abuf B) = 0).
      { unfold get_arr in E. rewrite HB in E. destruct (alive B); auto. cbn [bind] in E. right.
        destruct (Nat.eq_dec (length (abuf B)) 0) as [|N]; auto. exfalso.
        destruct (idx_ok t (length (abuf B)) ltac:(lia)) as [EI LI]. rewrite EI in E. cbn [bind] in E.
        destruct (nth_error (abuf B) (Nat.modulo t (length (abuf B)))) as [x|] eqn:X;
          [|apply nth_error_None in X; lia].
        rewrite (rd_ok _ _ _ X) in E. cbn [bind] in E. intuition discriminate. }
      split; auto. intros ->. rewrite HA in HB. injection HB as <-. destruct D; [congruence|lia].
    + destruct (Nat.eqb (top s) t); intuition discriminate.
Qed.

(* ---- a queue that never fills is safe ---- *)
Definition is_push (l : label) : nat := match l with LPush _ _ => 1 | _ => 0 end.
Definition inflight (p : option pc) : nat :=
  match p with
  | Some (PL _) | Some (PT _ _) | Some (PA _ _ _) | Some (PR _ _) | Some (PS _ _ _) | Some (PB _ _) => 1
  | _ => 0
  end.
Definition not_resizing (p : option pc) : Prop :=
  match p with
  | Some (RA _ _) | Some (RT _ _ _) | Some (RB _ _ _ _) | Some (RC _ _ _ _ _) | Some (RS _ _ _ _)
  | Some (RF _ _ _) => False
  | _ => True
  end.
Definition Small (o size room : nat) (s : st) : Prop :=
  (exists A, arrs s = [A] /\ alive A = true /\ length (abuf A) = size) /\
  bot s + inflight (nth_error (thr s) o) + room <= size /\
  not_resizing (nth_error (thr s) o).

Lemma small_step o size room s l : Inv o s -> allowed o l -> Small o size (is_push l + room) s ->
  exists s', step s l = Ok s' /\ Small o size room s'.
Proof.
  intros HI Ha ((A & HA & Al & Sz) & Hb & Hn). pose proof HI as [H1 H2 H3 H4 H5 H6].
  destruct (step s l) as [s'| | |] eqn:E.
  2-4: destruct (ub_is_stale_block o s l HI Ha) as (i & t & a & B & _ & _ & Na & NB & _); auto;
    exfalso; destruct H5 as (C & HC & _); rewrite HA in HC, NB;
    apply Na; (destruct (cur s) as [|c]; [|destruct c; discriminate]);
    (destruct a as [|a]; [reflexivity|destruct a; discriminate]).
  exists s'. split; auto.
  assert (GO : forall i p, (i = o -> bot s + inflight (Some p) + room <= size /\ not_resizing (Some p)) ->
      Small o size room (go_to s i p)).
  { intros i p Hp. split; [exists A; auto|]. cbn [go_to thr bot].
    destruct (Nat.eq_dec i o) as [->|N].
    - destruct (Nat.lt_ge_cases o (length (thr s))) as [L|L].
      + rewrite set_nth_same by auto. now apply Hp.
      + assert (nth_error (set_nth o p (thr s)) o = None) as -> by (apply nth_error_None; rewrite set_nth_length; auto).
        cbn [inflight not_resizing]. split; auto; lia.
    - rewrite set_nth_other by auto. split; auto; lia. }
  assert (FI : forall i e, Small o size room (finish s i e)).
  { intros i e. destruct (GO i Idle) as (G1 & G2 & G3).
    - intros ->. cbn [inflight not_resizing]. split; auto; lia.
    - split; [|split]; auto. }
  destruct l as [i w|i|i|i]; cbn [step allowed is_push] in *; unfold start in *; [|destruct Ha| |].
  - subst i. destruct (nth_error (thr s) o) as [[]|] eqn:EO; injection E as <-;
      try (split; [exists A; auto|]; rewrite EO; cbn [inflight not_resizing] in *; split; auto; lia).
    apply GO. intros _. cbn [inflight not_resizing] in *. split; auto; lia.
  - destruct (nth_error (thr s) i) as [[]|] eqn:EO; injection E as <-;
      try (split; [exists A; auto|]; split; auto; lia).
    apply GO. intros ->. cbn [inflight not_resizing]. split; auto; lia.
  - destruct (nth_error (thr s) i) as [p|] eqn:Ep.
    2:{ injection E as <-. split; [exists A; auto|]. split; auto; lia. }
    pose proof (H6 i p Ep) as Hp.
    assert (SM : Small o size room s) by (split; [exists A; auto|]; split; auto; lia).
    destruct H5 as (C & HC & _ & _ & _ & _). rewrite HA in HC.
    destruct (cur s) as [|c] eqn:Ec; [|destruct c; discriminate]. injection HC as <-.
    destruct p; cbn [run_pc tinv] in *; try (destruct Hp; fail);
      try (match type of Hp with
           | i = o => subst i; rewrite Ep in Hb, Hn; cbn [inflight not_resizing] in *
           | i = o /\ _ => destruct Hp as [-> Hp]; rewrite Ep in Hb, Hn; cbn [inflight not_resizing] in *
           end);
      try (destruct Hn; fail).
    + injection E as <-. auto.
    + injection E as <-. apply GO. intros _. cbn. split; auto; lia.
    + injection E as <-. apply GO. intros _. cbn. split; auto; lia.
    + unfold get_arr in E. rewrite HA, Ec in E. cbn [nth_error] in E. rewrite Al in E. cbn [bind] in E.
      injection E as <-. destruct (Nat.ltb_spec (length (abuf A)) (b - t + 1)); [lia|].
      apply GO. intros _. cbn. split; auto; lia.
    + injection E as <-. apply GO. intros _. cbn. split; auto; lia.
    + destruct Hp as (-> & -> & _). unfold get_arr in E. rewrite HA, Ec in E. cbn [nth_error set_nth] in E. rewrite Al in E.
      cbn [bind] in E. destruct (idx (bot s) (length (abuf A))) as [d| | |]; try discriminate.
      cbn [bind] in E. destruct (wr (abuf A) d w) as [buf'| | |] eqn:W; try discriminate.
      cbn [bind] in E. injection E as <-. apply wr_inv in W. destruct W as [W ->].
      split; [|cbn [go_to set_arrs thr bot]].
      * eexists. cbn [go_to set_arrs arrs set_nth]. split; [reflexivity|]. cbn [alive abuf].
        split; auto. now rewrite set_nth_length.
      * rewrite set_nth_same by (apply nth_error_Some; congruence). cbn. split; auto; lia.
    + destruct Hp as (-> & _). injection E as <-.
      split; [exists A; auto|]. cbn [finish set_bot thr bot].
      rewrite set_nth_same by (apply nth_error_Some; congruence). cbn. split; auto; lia.
    + injection E as <-. apply GO. intros ->. cbn. split; auto; lia.
    + destruct (Nat.ltb t (bot s)); injection E as <-; auto.
      apply GO. intros ->. cbn. split; auto; lia.
    + injection E as <-. apply GO. intros ->. cbn. split; auto; lia.
    + destruct (get_arr s a) as [buf| | |]; try discriminate. cbn [bind] in E.
      destruct (idx t (length buf)) as [d| | |]; try discriminate. cbn [bind] in E.
      destruct (rd buf d) as [x| | |]; try discriminate. cbn [bind] in E. injection E as <-.
      apply GO. intros ->. cbn. split; auto; lia.
    + destruct (Nat.eqb (top s) t); injection E as <-; auto.
      exact (FI i (Got i x)).
Qed.

Lemma small_run o size ls : forall s, Inv o s -> Forall (allowed o) ls ->
  Small o size (list_sum (map is_push ls)) s -> exists s', run s ls = Ok s'.
Proof.
  induction ls as [|l ls IH]; intros s HI HA HS; cbn [run]; eauto.
  inversion HA as [|? ? A1 A2]; subst. change (list_sum (map is_push (l :: ls))) with (is_push l + list_sum (map is_push ls)) in HS.
  destruct (small_step o size _ s l HI A1 HS) as (s1 & E & HS1). rewrite E. cbn [bind].
  apply IH; auto. eapply step_inv; eauto.
Qed.

Lemma no_growth_no_ub o size threads ls : 1 <= size -> Forall (allowed o) ls ->
  list_sum (map is_push ls) <= size -> exists s, run (init size threads) ls = Ok s.
Proof.
  intros Hs HA Hc. apply (small_run o size ls); auto using init_inv.
  split; [|split].
  - eexists. split; [reflexivity|]. cbn. split; auto. apply repeat_length.
  - cbn [init bot thr]. destruct (nth_error (repeat Idle threads) o) as [p|] eqn:E.
    + apply nth_error_In, repeat_spec in E. subst. cbn. lia.
    + cbn. lia.
  - cbn [init thr]. destruct (nth_error (repeat Idle threads) o) as [p|] eqn:E; [|exact I].
    apply nth_error_In, repeat_spec in E. subst. exact I.
Qed.

(* ---- witnesses ---- *)
Definition runs (i n : nat) : list label := repeat (LRun i) n.
(* thread 0 pushes 11 into a one-slot queue, thread 1 loads the block address, thread 0 pushes 22,
   grows and frees, thread 1 reads *)
Definition uaf_schedule : list label :=
  [LPush 0 11] ++ runs 0 5 ++ [LSteal 1] ++ runs 1 3 ++ [LPush 0 22] ++ runs 0 12 ++ runs 1 1.
Lemma uaf_happens : run (init 1 2) uaf_schedule = UB.
Proof. vm_compute. reflexivity. Qed.

(* thread 0 has pushed 11 and 22 and starts to take; it has read top when threads 1 and 2 steal both *)
Definition double_schedule : list label :=
  [LPush 0 11] ++ runs 0 5 ++ [LPush 0 22] ++ runs 0 5 ++
  [LTake 0] ++ runs 0 2 ++ [LSteal 1] ++ runs 1 5 ++ [LSteal 2] ++ runs 2 5 ++ runs 0 3.
Lemma double_happens : match run (init 4 3) double_schedule with
  | Ok s => log s = [Pushed 0 11; Pushed 0 22; Got 1 11; Got 2 22; Got 0 22] | _ => False end%Z.
Proof. vm_compute. reflexivity. Qed.

(* two producers read the same bottom *)
Definition lost_schedule : list label :=
  [LPush 0 11; LPush 1 22] ++ runs 0 4 ++ runs 1 4 ++ runs 0 1 ++ runs 1 1 ++
  [LSteal 2] ++ runs 2 5 ++ [LSteal 2] ++ runs 2 2.
Lemma lost_happens : match run (init 4 3) lost_schedule with
  | Ok s => log s = [Pushed 0 11; Pushed 1 22; Got 2 22; SawEmpty 2] | _ => False end%Z.
Proof. vm_compute. reflexivity. Qed.

Definition allowedb (o : nat) (l : label) : bool :=
  match l with LPush i _ => Nat.eqb i o | LTake _ => false | _ => true end.
Lemma uaf_reachable : exists ls, Forall (allowed 0) ls /\ run (init 1 2) ls = UB.
Proof.
  exists uaf_schedule. split; [|exact uaf_happens].
  assert (B : forallb (allowedb 0) uaf_schedule = true) by (vm_compute; reflexivity).
  apply Forall_forall. intros l Hl. rewrite forallb_forall in B. specialize (B l Hl).
  destruct l; cbn [allowedb allowed] in *; auto; [now apply Nat.eqb_eq|discriminate].
Qed.

Lemma double_reachable : exists ls, match run (init 4 3) ls with
  | Ok s => log s = [Pushed 0 11; Pushed 0 22; Got 1 11; Got 2 22; Got 0 22] | _ => False end%Z.
Proof. exists double_schedule. exact double_happens. Qed.
Lemma lost_reachable : exists ls, match run (init 4 3) ls with
  | Ok s => log s = [Pushed 0 11; Pushed 1 22; Got 2 22; SawEmpty 2] | _ => False end%Z.
Proof. exists lost_schedule. exact lost_happens. Qed.
