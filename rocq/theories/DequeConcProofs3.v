From Coq Require Import Permutation.
From Verif Require Import Base DequeModel DequeConcModel DequeConcProofs DequeConcProofs2.

(* ---- Schedules: any step of anybody; a take of the owner begins with its four loads and the store of
   bottom without a foreign step in between (as if top were read after that store), the rest of it is
   interleaved freely. ---- *)
Inductive move3 := Any3 (l : label) | TakeStart.
Definition expand3 (o : nat) (m : move3) : list label :=
  match m with Any3 l => [l] | TakeStart => LTake o :: repeat (LRun o) 4 end.
Definition allowed3 (o : nat) (m : move3) : Prop :=
  match m with
  | Any3 (LPush i w) => i = o /\ w <> EMPTY
  | Any3 (LTake _) => False
  | _ => True
  end.
Definition schedule3 (o : nat) (ms : list move3) : list label := flat_map (expand3 o) ms.

(* ---- invariant: [lb] is the bottom up to which the slots belong to the queue, [h] the tasks by index,
   [res] the task the owner has secured but not yet returned ---- *)
Definition full3 (s : st) (lb : nat) (h : list Z) (a room : nat) : Prop :=
  exists A, nth_error (arrs s) a = Some A /\ alive A = true /\ 1 <= length (abuf A) /\
    lb - top s + room <= length (abuf A) /\
    forall i v, top s <= i < lb -> nth_error h i = Some v ->
      nth_error (abuf A) (Nat.modulo i (length (abuf A))) = Some v.

Definition thief (p : pc) : bool :=
  match p with Idle | SL | SB _ | SA _ | SR _ _ | SX _ _ => true | _ => false end.

Definition tinv3 (s : st) (lb : nat) (h : list Z) (p : pc) : Prop :=
  match p with
  | SB t => t <= top s
  | SA t => t <= top s /\ t < lb
  | SR t a => t <= top s /\ t < lb /\ a < length (arrs s) /\
      (top s = t -> forall v, nth_error h t = Some v -> holds (arrs s) a t v)
  | SX t x => t <= top s /\ t < lb /\ (top s = t -> nth_error h t = Some x)
  | _ => True
  end.

Definition own (s : st) (lb : nat) (h res : list Z) (p : pc) : Prop :=
  match p with
  | PT _ b => lb = bot s /\ res = [] /\ b = lb
  | PA _ b t => lb = bot s /\ res = [] /\ b = lb /\ t <= top s
  | RA _ b => lb = bot s /\ res = [] /\ b = lb
  | RT _ b a => lb = bot s /\ res = [] /\ b = lb /\ a = cur s
  | RB _ b a t => lb = bot s /\ res = [] /\ b = lb /\ a = cur s /\ t <= top s /\
      (exists A, nth_error (arrs s) a = Some A /\ lb - t <= length (abuf A))
  | RC _ b a t b2 => lb = bot s /\ res = [] /\ b = lb /\ a = cur s /\ t <= top s /\ b2 = lb /\
      (exists A, nth_error (arrs s) a = Some A /\ lb - t <= length (abuf A))
  | RS _ b a n => lb = bot s /\ res = [] /\ b = lb /\ a = cur s /\ n <> a /\ full3 s lb h n 1
  | RF _ b a => lb = bot s /\ res = [] /\ b = lb /\ a <> cur s /\ full3 s lb h (cur s) 1 /\
      (exists A, nth_error (arrs s) a = Some A /\ alive A = true)
  | PR _ b => lb = bot s /\ res = [] /\ b = lb /\ full3 s lb h (cur s) 1
  | PS _ b a => lb = bot s /\ res = [] /\ b = lb /\ a = cur s /\ full3 s lb h (cur s) 1
  | PB w b => lb = bot s /\ res = [] /\ b = lb /\ full3 s lb h (cur s) 1 /\ holds (arrs s) (cur s) b w
  | TL | TT _ | TA _ _ | TS _ _ _ => False
  | TC b t a => bot s = b /\ a = cur s /\ t <= top s /\
      ((t < b /\ lb = b /\ exists x, res = [x] /\ x <> EMPTY /\ holds (arrs s) (cur s) b x) \/
       (t = b /\ lb = b + 1 /\ res = []) \/ (t = b + 1 /\ lb = b + 1 /\ res = []))
  | TX b t x => bot s = b /\ t = b /\ lb = b + 1 /\ res = [] /\ b <= top s /\ (top s = b -> nth_error h b = Some x)
  | TY b x => bot s = b /\ lb = b + 1 /\ top s = b + 1 /\ res = (if (x =? EMPTY)%Z then [] else [x])
  | _ => lb = bot s /\ res = []
  end.

Record Inv3 (o : nat) (s : st) (lb : nat) (h res : list Z) : Prop := {
  k_le : top s <= lb;
  k_bot : bot s <= lb;
  k_len : length h = lb;
  k_word : Forall (fun w => w <> EMPTY) h;
  k_perm : Permutation (pushed (log s)) (got (log s) ++ res ++ skipn (top s) h);
  k_cur : full3 s lb h (cur s) 0;
  k_thr : forall i p, nth_error (thr s) i = Some p -> tinv3 s lb h p /\ word_ok p /\ (i <> o -> thief p = true);
  k_own : match nth_error (thr s) o with Some p => own s lb h res p | None => lb = bot s /\ res = [] end }.

Lemma init_inv3 o size threads : 1 <= size -> Inv3 o (init size threads) 0 [] [].
Proof.
  intros H. constructor; cbn [init top bot log length skipn]; auto.
  - eexists; split; [reflexivity|]. cbn. rewrite repeat_length. repeat split; auto; lia.
  - intros i p E. cbn [thr init] in E. apply nth_error_In, repeat_spec in E. subst. repeat split; auto; exact I.
  - cbn [thr init]. destruct (nth_error (repeat Idle threads) o) as [p|] eqn:E; auto.
    apply nth_error_In, repeat_spec in E. subst. cbn. auto.
Qed.

(* threads other than the owner only look at top, bottom, the blocks and the history *)
Lemma tinv3_keep s s' lb lb' h h' p :
  top s <= top s' -> (forall t, t <= top s -> t < lb -> t < lb') ->
  (top s' = top s -> forall t, t < lb -> t = top s -> nth_error h' t = nth_error h t) ->
  length (arrs s) <= length (arrs s') ->
  (forall a t v, top s' = top s -> top s = t -> t < lb -> holds (arrs s) a t v -> holds (arrs s') a t v) ->
  tinv3 s lb h p -> tinv3 s' lb' h' p.
Proof.
  intros E1 E2 Eh El Eh2. destruct p; cbn [tinv3]; intros H; auto; try lia.
  - destruct H as (H1 & H2). split; [lia|auto].
  - destruct H as (H1 & H2 & H3 & H4). repeat split; auto; try lia.
    intros Et v Hv. assert (top s' = top s) by lia. rewrite Eh in Hv by (auto; lia). apply Eh2; auto; [lia|]. apply H4; auto. lia.
  - destruct H as (H1 & H2 & H3). repeat split; auto; try lia. intros Et. rewrite Eh by lia. apply H3. lia.
Qed.

(* steps of another thread that change at most top: what the owner relies on *)
Lemma own_keep s s' lb h res p :
  top s <= top s' -> top s' <= lb -> bot s' = bot s -> cur s' = cur s -> arrs s' = arrs s ->
  own s lb h res p -> own s' lb h res p.
Proof.
  intros E1 E1' E2 E3 E4.
  assert (F : forall a r, full3 s lb h a r -> full3 s' lb h a r).
  { intros a r (A & Ha & Al & H1 & Hr & Hc). exists A. rewrite E4. repeat split; auto; try lia.
    intros i v Hi. apply Hc. lia. }
  destruct p; cbn [own]; rewrite ?E2, ?E3, ?E4; intros H; auto;
    repeat match goal with H : _ /\ _ |- _ => destruct H end; repeat split; auto; try lia.
  - intros Et. match goal with H : _ = _ -> _ |- _ => apply H; lia end.
Qed.

(* thread [i], not the owner or the owner while stealing, moves on; shared state unchanged *)
Lemma go_own s lb h res i p o : (i = o -> own (go_to s i p) lb h res p) -> i < length (thr s) ->
  match nth_error (thr s) o with Some q => own s lb h res q | None => lb = bot s /\ res = [] end ->
  match nth_error (thr (go_to s i p)) o with Some q => own (go_to s i p) lb h res q | None => lb = bot s /\ res = [] end.
Proof.
  intros Hi L H. cbn [go_to thr]. destruct (Nat.eq_dec i o) as [E|N].
  - rewrite E in *. rewrite set_nth_same by auto. auto.
  - rewrite set_nth_other by auto. destruct (nth_error (thr s) o) as [q|] eqn:Q; auto.
Qed.

Lemma inv3_local o s lb h res i p : Inv3 o s lb h res -> i < length (thr s) -> tinv3 s lb h p -> word_ok p ->
  (i <> o -> thief p = true) -> (i = o -> own s lb h res p) -> Inv3 o (go_to s i p) lb h res.
Proof.
  intros [H1 H2 H3 H4 H5 H6 H7 H8] L Hp Hw Ht Ho. constructor; auto.
  - intros j q Hq. apply nth_go in Hq. destruct Hq as [[-> ->]|[_ Hq]].
    + split; [destruct p; exact Hp|auto].
    + destruct (H7 j q Hq) as (A & B & C). split; [destruct q; exact A|auto].
  - apply (go_own s lb h res i p o); auto.
Qed.

Lemma inv3_finish o s lb h res i e : Inv3 o s lb h res -> i < length (thr s) -> pushed [e] = [] -> got [e] = [] ->
  (i = o -> lb = bot s /\ res = []) -> Inv3 o (finish s i e) lb h res.
Proof.
  intros [H1 H2 H3 H4 H5 H6 H7 H8] L Ep Eg Ho. constructor; auto.
  - cbn [finish log top]. now rewrite pushed_app, got_app, Ep, Eg, !app_nil_r.
  - intros j q Hq. change (thr (finish s i e)) with (thr (go_to s i Idle)) in Hq.
    apply nth_go in Hq. destruct Hq as [[-> ->]|[_ Hq]]; [repeat split; auto; exact I|].
    destruct (H7 j q Hq) as (A & B & C). split; [destruct q; exact A|auto].
  - cbn [finish thr]. destruct (Nat.eq_dec i o) as [E|N].
    + rewrite E in *. rewrite set_nth_same by auto. cbn. auto.
    + rewrite set_nth_other by auto. destruct (nth_error (thr s) o) as [q|]; auto.
Qed.

Lemma inv3_got o s lb h res i x : Inv3 o s lb h res -> i < length (thr s) -> top s < lb -> nth_error h (top s) = Some x ->
  (i = o -> lb = bot s /\ res = []) -> Inv3 o (finish (set_top s (top s + 1)) i (Got i x)) lb h res.
Proof.
  intros [H1 H2 H3 H4 H5 (A & HA & Al & Sz & Fit & Cell) H7 H8] L Hlt Hx Ho.
  constructor; cbn [finish set_top log top bot cur]; auto; try lia.
  - rewrite pushed_app, got_app. cbn [pushed got flat_map app]. rewrite app_nil_r, H5, (skipn_nth h _ _ Hx), Nat.add_1_r.
    rewrite <- app_assoc. apply Permutation_app_head. cbn [app]. symmetry. apply Permutation_middle.
  - exists A. cbn [finish set_top arrs top]. repeat split; auto; try lia. intros k v Hk. apply Cell. lia.
  - intros j q Hq.
    change (thr (finish (set_top s (top s + 1)) i (Got i x))) with (thr (go_to s i Idle)) in Hq.
    apply nth_go in Hq. destruct Hq as [[-> ->]|[_ Hq]]; [repeat split; auto; exact I|].
    destruct (H7 j q Hq) as (B & C & D). split; [|auto]. apply tinv3_keep with s lb h; cbn; auto; lia.
  - cbn [finish set_top thr]. destruct (Nat.eq_dec i o) as [E|N].
    + rewrite E in *. rewrite set_nth_same by auto. cbn. auto.
    + rewrite set_nth_other by auto. destruct (nth_error (thr s) o) as [q|]; auto.
      apply own_keep with s; auto; cbn; lia.
Qed.

(* a step of the owner that changes blocks or bottom but not top or the log *)
Lemma inv3_owner o s s' lb lb' h h' res res' p : Inv3 o s lb h res -> o < length (thr s) ->
  top s' = top s -> log s' = log s -> thr s' = thr (go_to s o p) ->
  length (arrs s) <= length (arrs s') ->
  (forall a t v, top s = t -> t < lb -> holds (arrs s) a t v -> holds (arrs s') a t v) ->
  (forall t, t <= top s -> t < lb -> t < lb') -> (forall t, t < lb -> t = top s -> nth_error h' t = nth_error h t) ->
  top s <= lb' -> bot s' <= lb' -> length h' = lb' -> Forall (fun w => w <> EMPTY) h' ->
  Permutation (res ++ skipn (top s) h) (res' ++ skipn (top s) h') ->
  full3 s' lb' h' (cur s') 0 -> tinv3 s' lb' h' p -> word_ok p -> own s' lb' h' res' p -> Inv3 o s' lb' h' res'.
Proof.
  intros [H1 H2 H3 H4 H5 H6 H7 H8] L Et El Eth Ea Eh Elb Ehh Hle Hb Hl Hw Hperm Hf Hp Hwp Ho.
  constructor; rewrite ?Et, ?El; auto.
  - now rewrite H5, Hperm.
  - intros j q Hq. rewrite Eth in Hq. apply nth_go in Hq. destruct Hq as [[-> ->]|[N Hq]].
    + repeat split; auto; congruence.
    + destruct (H7 j q Hq) as (B & C & D). split; [|auto]. apply tinv3_keep with s lb h; auto. lia.
  - rewrite Eth. cbn [go_to thr]. now rewrite set_nth_same.
Qed.

Lemma step3_RC o s lb h res w b a t b2 s' : Inv3 o s lb h res -> o < length (thr s) -> own s lb h res (RC w b a t b2) -> w <> EMPTY ->
  run_pc s o (RC w b a t b2) = Ok s' -> Inv3 o s' lb h res.
Proof.
  intros HI Lo (B1 & -> & -> & -> & Ht & -> & (A & HA & Hb)) Hw E. cbn [run_pc] in E.
  pose proof HI as [H1 H2 H3 H4 H5 (A' & HA' & Al & Sz & Fit & Cell) _ _].
  rewrite HA in HA'. injection HA' as <-.
  unfold get_arr in E. rewrite HA, Al in E. cbn [bind] in E.
  destruct (copy_spec (lb - t) t (abuf A) (repeat 0%Z (2 * length (abuf A)))) as (new & EC & L & C & _);
    rewrite ?repeat_length; try lia.
  rewrite EC in E. cbn [bind] in E. injection E as <-. rewrite repeat_length in L, C.
  assert (NA : forall k, k < length (arrs s) ->
     nth_error (arrs s ++ [{| abuf := new; alive := true |}]) k = nth_error (arrs s) k)
    by (intros; now apply nth_error_app1).
  assert (cur s < length (arrs s)) by (apply nth_error_Some; congruence).
  apply inv3_owner with s lb h [] (RS w lb (cur s) (length (arrs s))); auto; try exact I.
  - cbn. rewrite app_length. lia.
  - cbn. intros a t' v _ _ Hh. pose proof Hh as (B & HB & _).
    apply holds_ext with (arrs s); auto. apply NA. apply nth_error_Some. congruence.
  - exists A. cbn. rewrite NA by auto. repeat split; auto.
  - cbn [own]. repeat split; auto; [cbn; lia|].
    exists {| abuf := new; alive := true |}. cbn. rewrite nth_error_app2, Nat.sub_diag by lia.
    repeat split; auto; try lia.
    intros i v Hi Hv. rewrite L. replace i with (t + (i - t)) by lia. rewrite C by lia.
    apply Cell; auto; [lia|]. now replace (t + (i - t)) with i by lia.
Qed.

Lemma step3_RS o s lb h res w b a n s' : Inv3 o s lb h res -> o < length (thr s) -> own s lb h res (RS w b a n) -> w <> EMPTY ->
  run_pc s o (RS w b a n) = Ok s' -> Inv3 o s' lb h res.
Proof.
  intros HI Lo (B1 & -> & -> & -> & Hn & HF) Hw E. cbn [run_pc] in E. injection E as <-.
  pose proof HI as [H1 H2 H3 H4 H5 (A & HA & Al & Sz & Fit & Cell) _ _].
  assert (HF' : full3 (go_to (set_cur s n) o (RF w lb (cur s))) lb h n 1) by exact HF.
  apply inv3_owner with s lb h [] (RF w lb (cur s)); auto; try exact I.
  - destruct HF' as (B & HB & Bl & F1 & F2 & F3). exists B. repeat split; auto. lia.
  - cbn [own]. repeat split; auto. exists A. auto.
Qed.

Lemma step3_RF o s lb h res w b a s' : Inv3 o s lb h res -> o < length (thr s) -> own s lb h res (RF w b a) -> w <> EMPTY ->
  run_pc s o (RF w b a) = Ok s' -> Inv3 o s' lb h res.
Proof.
  intros HI Lo (B1 & -> & -> & Hn & HF & (A & HA & Al)) Hw E. cbn [run_pc] in E.
  unfold get_arr in E. rewrite HA, Al in E. cbn [bind] in E. injection E as <-.
  pose proof HI as [H1 H2 H3 H4 H5 Hc _ _].
  assert (FE : forall h r, full3 s lb h (cur s) r -> full3 (go_to
    (set_arrs s (set_nth a {| abuf := abuf A; alive := false |} (arrs s))) o (PR w lb)) lb h (cur s) r).
  { intros h' r (B & HB & Hx). exists B. cbn. rewrite set_nth_other by auto. auto. }
  apply inv3_owner with s lb h [] (PR w lb); auto; try exact I.
  - cbn. now rewrite set_nth_length.
  - cbn. intros a' t v _ _ (B & HB & Hv). destruct (Nat.eq_dec a a') as [<-|N].
    + rewrite HA in HB. injection HB as <-. eexists. rewrite set_nth_same by (apply nth_error_Some; congruence).
      split; [reflexivity|exact Hv].
    + exists B. rewrite set_nth_other by auto. auto.
  - cbn [own]. repeat split; auto.
Qed.

Lemma step3_PS o s lb h res w b a s' : Inv3 o s lb h res -> o < length (thr s) -> own s lb h res (PS w b a) -> w <> EMPTY ->
  run_pc s o (PS w b a) = Ok s' -> Inv3 o s' lb h res.
Proof.
  intros HI Lo (B1 & -> & -> & -> & (A & HA & Al & Sz & Fit & Cell)) Hw E. cbn [run_pc] in E.
  unfold get_arr in E. rewrite HA, Al in E. cbn [bind] in E.
  destruct (idx_ok lb _ Sz) as [EI LI]. rewrite EI in E. cbn [bind] in E.
  rewrite wr_ok in E by auto. cbn [bind] in E. injection E as <-.
  pose proof HI as [H1 H2 H3 H4 _ _ _ _].
  set (B := {| abuf := set_nth (lb mod length (abuf A)) w (abuf A); alive := true |}).
  assert (HB : nth_error (set_nth (cur s) B (arrs s)) (cur s) = Some B).
  { apply set_nth_same. apply nth_error_Some. congruence. }
  assert (LB : length (abuf B) = length (abuf A)) by apply set_nth_length.
  assert (CB : forall i v, top s <= i < lb ->
     nth_error (abuf A) (Nat.modulo i (length (abuf A))) = Some v ->
     nth_error (abuf B) (Nat.modulo i (length (abuf B))) = Some v).
  { intros i v Hi Hv. rewrite LB. cbn [abuf B]. rewrite set_nth_other; auto.
    intros X. symmetry in X. revert X. apply mod_neq. lia. }
  assert (FB : full3 (go_to (set_arrs s (set_nth (cur s) B (arrs s))) o (PB w lb)) lb h (cur s) 1).
  { exists B. cbn [go_to set_arrs arrs top bot]. repeat split; auto; try lia. }
  apply inv3_owner with s lb h [] (PB w lb); auto; try exact I.
  - cbn. now rewrite set_nth_length.
  - cbn [go_to set_arrs arrs]. intros a' t v Et Hlt (C & HC & Hv). destruct (Nat.eq_dec (cur s) a') as [<-|N].
    + rewrite HA in HC. injection HC as <-. exists B. split; auto. apply CB; auto. lia.
    + exists C. rewrite set_nth_other by auto. auto.
  - destruct FB as (C & F1 & F2 & F3 & F4 & F5). exists C. repeat split; auto. lia.
  - cbn [own]. repeat split; auto. exists B. split; [exact HB|]. rewrite LB. cbn [abuf B].
    now apply set_nth_same.
Qed.

Lemma step3_PB o s lb h res w b s' : Inv3 o s lb h res -> o < length (thr s) -> own s lb h res (PB w b) -> w <> EMPTY ->
  run_pc s o (PB w b) = Ok s' -> Inv3 o s' (lb + 1) (h ++ [w]) res.
Proof.
  intros HI Lo (B1 & -> & -> & (A & HA & Al & Sz & Fit & Cell) & (A' & HA' & Hw)) Hn E. cbn [run_pc] in E.
  injection E as <-. rewrite HA in HA'. injection HA' as <-.
  pose proof HI as [H1 H2 H3 H4 H5 H6 H7 H8].
  set (s' := finish (set_bot s (lb + 1)) o (Pushed o w)).
  constructor; cbn [s' finish set_bot log top bot cur]; auto; try lia.
  - rewrite app_length, H3. cbn [length]. lia.
  - apply Forall_app. split; auto.
  - rewrite pushed_app, got_app. cbn [pushed got flat_map app]. rewrite app_nil_r, skipn_app.
    replace (top s - length h) with 0 by lia. cbn [skipn app] in *. rewrite H5, app_assoc. reflexivity.
  - exists A. cbn [s' finish set_bot arrs top bot]. repeat split; auto; try lia.
    intros i v Hi Hv. destruct (Nat.eq_dec i lb) as [->|N].
    + rewrite nth_error_app2, H3, Nat.sub_diag in Hv by lia. injection Hv as <-. exact Hw.
    + rewrite nth_error_app1 in Hv by lia. apply Cell; auto. lia.
  - intros j q Hq.
    change (thr s') with (thr (go_to s o Idle)) in Hq.
    apply nth_go in Hq. destruct Hq as [[-> ->]|[N Hq]]; [repeat split; auto; exact I|].
    destruct (H7 j q Hq) as (C & D & F). split; [|auto].
    apply tinv3_keep with s lb h; auto; cbn; try lia.
    intros _ t Lt _. apply nth_error_app1. lia.
  - cbn [s' finish set_bot thr]. rewrite set_nth_same by auto. cbn. auto.
Qed.

(* the owner's steps after bottom was published *)
Lemma step3_TC o s lb h res b t a s' : Inv3 o s lb h res -> o < length (thr s) -> own s lb h res (TC b t a) ->
  run_pc s o (TC b t a) = Ok s' -> exists res', Inv3 o s' lb h res'.
Proof.
  intros HI Lo (B1 & -> & Ht & D) E. cbn [run_pc] in E.
  pose proof HI as [H1 H2 H3 H4 H5 (A & HA & Al & Sz & Fit & Cell) H7 H8].
  destruct D as [(L & -> & x & -> & NE & (A' & HA' & Hx))|[(-> & Hlb & ->)|(-> & Hlb & ->)]].
  - destruct (Nat.leb_spec t b); [|lia]. unfold get_arr in E. rewrite HA, Al in E. cbn [bind] in E.
    destruct (idx_ok b _ Sz) as [EI LI]. rewrite EI in E. cbn [bind] in E. rewrite HA in HA'. injection HA' as <-.
    rewrite (rd_ok _ _ x) in E by auto. cbn [bind] in E. destruct (Nat.eqb_spec t b); [lia|].
    unfold result in E. apply Z.eqb_neq in NE. rewrite NE in E. injection E as <-. exists [].
    constructor; auto.
    + cbn [finish log top]. rewrite pushed_app, got_app. cbn [pushed got flat_map app]. rewrite app_nil_r, H5, <- app_assoc. reflexivity.
    + exists A. repeat split; auto.
    + intros j q Hq. change (thr (finish s o (Got o x))) with (thr (go_to s o Idle)) in Hq.
      apply nth_go in Hq. destruct Hq as [[-> ->]|[N Hq]]; [repeat split; auto; exact I|].
      destruct (H7 j q Hq) as (C & D & F). split; [destruct q; exact C|auto].
    + cbn [finish thr]. rewrite set_nth_same by auto. cbn. split; auto.
  - rewrite Nat.leb_refl in E. unfold get_arr in E. rewrite HA, Al in E. cbn [bind] in E.
    destruct (idx_ok b _ Sz) as [EI LI]. rewrite EI in E. cbn [bind] in E.
    destruct (nth_error (abuf A) (Nat.modulo b (length (abuf A)))) as [x|] eqn:X; [|apply nth_error_None in X; lia].
    rewrite (rd_ok _ _ x) in E by auto. cbn [bind] in E. rewrite Nat.eqb_refl in E. injection E as <-. exists [].
    apply inv3_local; auto; try exact I; try congruence. intros _. cbn [own]. do 5 (split; [auto|]). intros Et.
    destruct (nth_error h b) as [v|] eqn:V; [|apply nth_error_None in V; lia].
    rewrite <- X. symmetry. apply Cell; auto. lia.
  - destruct (Nat.leb_spec (b + 1) b); [lia|]. injection E as <-. exists [].
    apply inv3_local; auto; try exact I; try congruence. intros _. cbn [own]. do 3 (split; [auto; lia|]). reflexivity.
Qed.

Lemma step3_TX o s lb h res b t x s' : Inv3 o s lb h res -> o < length (thr s) -> own s lb h res (TX b t x) ->
  run_pc s o (TX b t x) = Ok s' -> exists res', Inv3 o s' lb h res'.
Proof.
  intros HI Lo (B1 & -> & Hlb & -> & Ht & Hx) E. cbn [run_pc] in E.
  pose proof HI as [H1 H2 H3 H4 H5 (A & HA & Al & Sz & Fit & Cell) H7 H8].
  destruct (Nat.eqb_spec (top s) b) as [Et|N]; injection E as <-.
  - specialize (Hx Et). assert (NE : x <> EMPTY) by (rewrite Forall_forall in H4; apply H4; eapply nth_error_In; eauto).
    exists [x]. constructor; cbn [go_to set_top log top bot cur]; auto; try lia.
    + rewrite H5. cbn [app]. apply Permutation_app_head. rewrite Et, (skipn_nth h _ _ Hx), Nat.add_1_r. reflexivity.
    + exists A. cbn [go_to set_top arrs top]. repeat split; auto; try lia.
    + intros j q Hq. apply nth_go in Hq. destruct Hq as [[-> ->]|[N Hq]]; [repeat split; auto; congruence|].
      destruct (H7 j q Hq) as (C & D & F). split; [|auto]. apply tinv3_keep with s lb h; cbn; auto; lia.
    + cbn [go_to set_top thr]. rewrite set_nth_same by auto. cbn [own go_to set_top top bot]. apply Z.eqb_neq in NE. rewrite NE. auto.
  - exists []. apply inv3_local; auto; try exact I; try congruence. intros _. cbn [own]. do 3 (split; [auto; lia|]). reflexivity.
Qed.

Lemma step3_TY o s lb h res b x s' : Inv3 o s lb h res -> o < length (thr s) -> own s lb h res (TY b x) ->
  run_pc s o (TY b x) = Ok s' -> exists res', Inv3 o s' lb h res'.
Proof.
  intros HI Lo (B1 & Hlb & Ht & Hr) E. cbn [run_pc] in E. injection E as <-. exists [].
  pose proof HI as [H1 H2 H3 H4 H5 (A & HA & Al & Sz & Fit & Cell) H7 H8].
  constructor; cbn [finish set_bot log top bot cur]; auto; try lia.
  - rewrite pushed_app, got_app, H5, Hr. unfold result. destruct (x =? EMPTY)%Z; cbn [pushed got flat_map app]; rewrite ?app_nil_r; auto.
    rewrite <- app_assoc. reflexivity.
  - exists A. repeat split; auto.
  - intros j q Hq. change (thr (finish (set_bot s (b + 1)) o (result o x))) with (thr (go_to s o Idle)) in Hq.
    apply nth_go in Hq. destruct Hq as [[-> ->]|[N Hq]]; [repeat split; auto; exact I|].
    destruct (H7 j q Hq) as (C & D & F). split; [destruct q; exact C|auto].
  - cbn [finish set_bot thr]. rewrite set_nth_same by auto. cbn. auto.
Qed.

Lemma step3_inv o s lb h res l s' : Inv3 o s lb h res -> allowed3 o (Any3 l) -> step s l = Ok s' ->
  exists lb' h' res', Inv3 o s' lb' h' res'.
Proof.
  intros HI Ha E. pose proof HI as [H1 H2 H3 H4 H5 H6 H7 H8].
  destruct l as [i w|i|i|i]; cbn [step allowed3] in *; unfold start in *; [|destruct Ha| |].
  - destruct Ha as [-> Hw]. exists lb, h, res. destruct (nth_error (thr s) o) as [p|] eqn:P; [|injection E as <-; auto].
    assert (o < length (thr s)) by (apply nth_error_Some; congruence).
    destruct p; injection E as <-; auto. apply inv3_local; auto; try exact I; congruence.
  - exists lb, h, res. destruct (nth_error (thr s) i) as [p|] eqn:P; [|injection E as <-; auto].
    assert (i < length (thr s)) by (apply nth_error_Some; congruence).
    destruct p; injection E as <-; auto. apply inv3_local; auto; try exact I.
    intros ->. rewrite P in H8. exact H8.
  - destruct (nth_error (thr s) i) as [p|] eqn:Ep; [|injection E as <-; eauto].
    assert (Li : i < length (thr s)) by (apply nth_error_Some; congruence).
    destruct (H7 i p Ep) as (Hp & Hw & Ht).
    destruct (thief p) eqn:T.
    + assert (Ho : i = o -> lb = bot s /\ res = []) by (intros ->; rewrite Ep in H8; destruct p; try discriminate; exact H8).
      exists lb, h, res. destruct p; try discriminate; cbn [tinv3 run_pc] in *.
      * injection E as <-. auto.
      * injection E as <-. apply inv3_local; cbn [tinv3]; auto.
      * destruct (Nat.ltb_spec t (bot s)) as [L|L]; injection E as <-.
        -- apply inv3_local; cbn [tinv3]; auto. lia.
        -- apply inv3_finish; auto.
      * injection E as <-. destruct Hp as [P1 P2].
        apply inv3_local; cbn [tinv3]; auto. destruct H6 as (A & HA & _ & _ & _ & Cell).
        repeat split; auto; [apply nth_error_Some; congruence|].
        intros Et v Hv. exists A. split; auto. apply Cell; auto. lia.
      * destruct Hp as (P1 & P2 & P3 & P4).
        destruct (get_arr s a) as [buf| | |] eqn:G; try discriminate. cbn [bind] in E.
        apply get_arr_inv in G. destruct G as (A & HA & Al & <-).
        unfold idx in E. destruct (Nat.eqb_spec (length (abuf A)) 0); try discriminate. cbn [bind] in E.
        destruct (rd (abuf A) (Nat.modulo t (length (abuf A)))) as [x| | |] eqn:R; try discriminate.
        cbn [bind] in E. injection E as <-. apply rd_inv in R.
        apply inv3_local; cbn [tinv3]; auto. repeat split; auto. intros Et.
        destruct (nth_error h t) as [v|] eqn:Hv.
        -- destruct (P4 Et v eq_refl) as (B & HB & Hx). rewrite HA in HB. injection HB as <-. congruence.
        -- apply nth_error_None in Hv. lia.
      * destruct Hp as (P1 & P2 & P3).
        destruct (Nat.eqb_spec (top s) t) as [Et|Nt]; injection E as <-.
        -- subst t. apply inv3_got; auto.
        -- apply inv3_finish; auto.
    + assert (i = o) by (destruct (Nat.eq_dec i o) as [|N]; auto; specialize (Ht N); congruence). subst i.
      rewrite Ep in H8. destruct p; try discriminate; cbn [word_ok] in Hw; try (destruct H8; fail).
      * exists lb, h, res. injection E as <-. destruct H8 as [-> ->]. apply inv3_local; auto; try exact I; try congruence. cbn [own]. auto.
      * exists lb, h, res. injection E as <-. destruct H8 as (B1 & -> & ->). apply inv3_local; auto; try exact I; try congruence. cbn [own]. auto.
      * exists lb, h, res. destruct H8 as (B1 & -> & -> & Hl). cbn [run_pc] in E.
        destruct H6 as (A & HA & Al & Sz & Fit & Cell). unfold get_arr in E. rewrite HA, Al in E.
        cbn [bind] in E. injection E as <-.
        destruct (Nat.ltb_spec (length (abuf A)) (lb - t + 1)) as [L|L]; apply inv3_local; auto; try exact I; try congruence; intros _; cbn [own]; auto.
        repeat split; auto. exists A. repeat split; auto. lia.
      * exists lb, h, res. injection E as <-. destruct H8 as (B1 & -> & ->). apply inv3_local; auto; try exact I; try congruence. cbn [own]. auto.
      * exists lb, h, res. injection E as <-. destruct H8 as (B1 & -> & -> & ->). apply inv3_local; auto; try exact I; try congruence. cbn [own]. intros _.
        repeat split; auto. destruct H6 as (A & HA & _ & _ & Fit & _). exists A. split; auto. lia.
      * exists lb, h, res. injection E as <-. destruct H8 as (B1 & -> & -> & -> & ? & ?). apply inv3_local; auto; try exact I; try congruence. cbn [own]. intros _.
        repeat split; auto.
      * exists lb, h, res. eapply step3_RC; eauto.
      * exists lb, h, res. eapply step3_RS; eauto.
      * exists lb, h, res. eapply step3_RF; eauto.
      * exists lb, h, res. injection E as <-. destruct H8 as (B1 & -> & -> & HF). apply inv3_local; auto; try exact I; try congruence. cbn [own]. auto.
      * exists lb, h, res. eapply step3_PS; eauto.
      * exists (lb + 1), (h ++ [w]), res. eapply step3_PB; eauto.
      * exists lb, h. eapply step3_TC; eauto.
      * exists lb, h. eapply step3_TX; eauto.
      * exists lb, h. eapply step3_TY; eauto.
Qed.

Definition start1 (s : st) (o : nat) : outcome st :=
  match bot s with O => UB | S b => Ok (go_to (set_bot s b) o (TC b (top s) (cur s))) end.
Lemma start_block s o : nth_error (thr s) o = Some Idle -> run s (expand3 o TakeStart) = start1 s o.
Proof.
  intros H. assert (L : o < length (thr s)) by (apply nth_error_Some; congruence).
  assert (SAME : forall (p : pc) l, length l = length (thr s) -> nth_error (set_nth o p l) o = Some p)
    by (intros; apply set_nth_same; lia).
  cbn [expand3 repeat]. rewrite run_S. cbn [step]. unfold start. rewrite H. unfold go_to. cbn [bind].
  rewrite run_S. cbn [step thr]. rewrite SAME by auto. cbn [run_pc bot]. unfold start1. destruct (bot s) as [|b] eqn:B; [reflexivity|].
  unfold go_to. cbn [bind top bot cur arrs thr log]. rewrite set_nth_twice.
  one SAME. one SAME. one SAME. reflexivity.
Qed.

Lemma start1_ok o s lb h res s' : Inv3 o s lb h res -> nth_error (thr s) o = Some Idle -> start1 s o = Ok s' ->
  exists lb' h' res', Inv3 o s' lb' h' res'.
Proof.
  intros HI Hi E. pose proof HI as [H1 H2 H3 H4 H5 (A & HA & Al & Sz & Fit & Cell) H7 H8]. rewrite Hi in H8. destruct H8 as [-> ->].
  assert (L : o < length (thr s)) by (apply nth_error_Some; congruence).
  unfold start1 in E. destruct (bot s) as [|b] eqn:B; [discriminate|]. injection E as <-.
  destruct (Nat.lt_ge_cases (top s) b) as [Lt|Ge].
  - destruct (nth_error h b) as [x|] eqn:Hx; [|apply nth_error_None in Hx; lia].
    assert (HS : h = firstn b h ++ [x]) by (apply firstn_all_but; auto).
    assert (LF : length (firstn b h) = b) by (rewrite firstn_length; lia).
    assert (NE : x <> EMPTY) by (rewrite Forall_forall in H4; apply H4; eapply nth_error_In; eauto).
    assert (EQ : forall t, t < b -> nth_error (firstn b h) t = nth_error h t).
    { intros t Lt'. rewrite HS at 2. rewrite nth_error_app1; auto. lia. }
    exists b, (firstn b h), [x].
    apply inv3_owner with s (S b) h [] (TC b (top s) (cur s)); auto; try exact I; try lia.
    + intros t _ ->. apply EQ. lia.
    + rewrite HS in H4. apply Forall_app in H4. tauto.
    + cbn [app]. rewrite HS at 1. rewrite skipn_app. replace (top s - length (firstn b h)) with 0 by lia. cbn [skipn].
      apply Permutation_app_comm.
    + exists A. cbn [go_to set_bot arrs top cur]. repeat split; auto; try lia.
      intros i v Hi' Hv. apply Cell; [lia|]. rewrite <- EQ by lia. exact Hv.
    + cbn [own go_to set_bot bot cur top arrs]. do 3 (split; [auto|]). left. split; auto. split; auto. exists x. repeat split; auto.
      exists A. split; auto. apply Cell; auto. lia.
  - exists (S b), h, []. apply inv3_owner with s (S b) h [] (TC b (top s) (cur s)); auto; try exact I; cbn [go_to set_bot bot]; try lia.
    + exists A. repeat split; auto.
    + cbn [own go_to set_bot bot cur top arrs]. do 3 (split; [auto|]). right. destruct (Nat.eq_dec (top s) b); [left|right]; repeat split; auto; lia.
Qed.

Lemma owner_runs3 o n : forall s lb h res s', Inv3 o s lb h res -> run s (repeat (LRun o) n) = Ok s' -> exists lb' h' res', Inv3 o s' lb' h' res'.
Proof.
  induction n as [|n IH]; intros s lb h res s' HI; cbn [repeat run].
  - intros [= <-]. eauto.
  - destruct (step s (LRun o)) as [s1| | |] eqn:E; try discriminate. cbn [bind]. intros R.
    destruct (step3_inv o s lb h res (LRun o) s1 HI I E) as (lb1 & h1 & r1 & HI1). eauto.
Qed.

Lemma start_inv o s lb h res s' : Inv3 o s lb h res -> run s (expand3 o TakeStart) = Ok s' -> exists lb' h' res', Inv3 o s' lb' h' res'.
Proof.
  intros HI E. destruct (nth_error (thr s) o) as [p|] eqn:P.
  - assert (D : p = Idle \/ start s o TL = Ok s) by (unfold start; rewrite P; destruct p; auto).
    destruct D as [->|D].
    + rewrite start_block in E by auto. eapply start1_ok; eauto.
    + unfold expand3 in E. rewrite run_S in E. cbn [step] in E. rewrite D in E. cbn [bind] in E. eapply owner_runs3; eauto.
  - unfold expand3 in E. rewrite run_S in E. cbn [step] in E. unfold start in E. rewrite P in E. cbn [bind] in E.
    rewrite none_runs in E by auto. injection E as <-. eauto.
Qed.

Lemma run_inv3 o ms : forall s lb h res s', Inv3 o s lb h res -> Forall (allowed3 o) ms -> run s (schedule3 o ms) = Ok s' ->
  exists lb' h' res', Inv3 o s' lb' h' res'.
Proof.
  induction ms as [|m ms IH]; intros s lb h res s' HI HA E; cbn [schedule3 flat_map] in E.
  - injection E as <-. eauto.
  - inversion HA as [|? ? Hm Hr]; subst. rewrite run_app in E. destruct (run s (expand3 o m)) as [s1| | |] eqn:E1; try discriminate.
    cbn [bind] in E. assert (exists lb1 h1 r1, Inv3 o s1 lb1 h1 r1) as (lb1 & h1 & r1 & HI1); [|eauto].
    destruct m as [l|].
    + cbn [expand3 run] in E1. destruct (step s l) as [s2| | |] eqn:E2; try discriminate. cbn [bind] in E1. injection E1 as <-.
      eapply step3_inv; eauto.
    + eapply start_inv; eauto.
Qed.

(* nothing is handed out twice and nothing is lost *)
Lemma conserved o size threads ms s : 1 <= size -> Forall (allowed3 o) ms ->
  run (init size threads) (schedule3 o ms) = Ok s ->
  (exists rest, Permutation (pushed (log s)) (got (log s) ++ rest)) /\
  (nth_error (thr s) o = Some Idle -> top s <= bot s /\ exists rest, length rest = bot s - top s /\ Permutation (pushed (log s)) (got (log s) ++ rest)).
Proof.
  intros Hs HA E. destruct (run_inv3 o ms _ _ _ _ _ (init_inv3 o size threads Hs) HA E) as (lb & h & res & [H1 H2 H3 H4 H5 H6 H7 H8]).
  split; [eauto|]. intros Hi. rewrite Hi in H8. destruct H8 as [-> ->]. split; auto. exists (skipn (top s) h). split; auto.
  rewrite skipn_length. lia.
Qed.
