From Verif Require Import Base DllModel DllProofs TimersModel.
Local Open Scope Z_scope.

(* ---- reference: a sorted list of (timer, due time) ---- *)
Record tspec := {
  pend : list (nat * Z);       (* pending, next to fire first *)
  running : option nat;        (* timer whose callback is executing *)
  srep : list nat;             (* timers marked repeating *)
  live : list nat;             (* timers not yet released *)
  ids : nat;
  sfired : list (nat * Z);
  srepeats : list nat }.

Definition tspec0 : tspec := {| pend := []; running := None; srep := []; live := []; ids := 0%nat; sfired := []; srepeats := [] |}.

(* a timer due at [w] goes in front of the first one not due before it *)
Fixpoint ins (x : nat) (w : Z) (l : list (nat * Z)) : list (nat * Z) :=
  match l with
  | [] => [(x, w)]
  | (y, v) :: r => if v <? w then (y, v) :: ins x w r else (x, w) :: l
  end.

Definition inb (x : nat) (l : list nat) : bool := existsb (Nat.eqb x) l.
Definition del (x : nat) (l : list nat) : list nat := filter (fun y => negb (Nat.eqb x y)) l.
Definition runs (st : tspec) (x : nat) : bool := match running st with Some y => Nat.eqb x y | None => false end.
(* delays whose nanosecond count fits an int *)
Definition short_delay (ms : Z) : bool := (-2147 <=? ms) && (ms <=? 2147).
Definition due_at (clk ms : Z) : Z := wrapu 64 (clk + ms * 1000000).

(* None: the program broke the rules for using timers:
   - repeat only the timer whose callback is running, at most once per callback;
   - clear only an unreleased timer, and not after repeating it in the same callback *)
Definition spec_act (st : tspec) (a : tact) : option tspec :=
  match a with
  | TNew clk ms =>
    if short_delay ms then
      Some {| pend := ins (ids st) (due_at clk ms) (pend st); running := running st; srep := srep st;
              live := ids st :: live st; ids := S (ids st); sfired := sfired st; srepeats := srepeats st |}
    else None
  | TRepeat x clk ms =>
    if short_delay ms && runs st x && negb (inb x (map fst (pend st))) then
      Some {| pend := ins x (due_at clk ms) (pend st); running := running st; srep := x :: srep st;
              live := live st; ids := ids st; sfired := sfired st; srepeats := srepeats st ++ [x] |}
    else None
  | TClear x =>
    if inb x (live st) && negb (runs st x && inb x (map fst (pend st))) then
      Some {| pend := pend st; running := running st; srep := del x (srep st);
              live := live st; ids := ids st; sfired := sfired st; srepeats := srepeats st |}
    else None
  end.
Fixpoint spec_acts (st : tspec) (l : list tact) : option tspec :=
  match l with [] => Some st | a :: r => match spec_act st a with None => None | Some st1 => spec_acts st1 r end end.

Definition spec_top (st : tspec) (o : top) : option tspec :=
  match o with
  | TAct a => spec_act st a
  | TIter now acts =>
    match pend st with
    | [] => Some st
    | (t, w) :: r =>
      if w <=? now then
        match spec_acts {| pend := r; running := Some t; srep := srep st; live := live st; ids := ids st;
                           sfired := sfired st ++ [(t, now)]; srepeats := srepeats st |} acts with
        | None => None
        | Some st2 =>
          Some {| pend := pend st2; running := None; srep := srep st2;
                  live := if inb t (srep st2) then live st2 else del t (live st2);
                  ids := ids st2; sfired := sfired st2; srepeats := srepeats st2 |}
        end
      else Some st
    end
  end.
Fixpoint spec_tops (st : tspec) (l : list top) : option tspec :=
  match l with [] => Some st | o :: r => match spec_top st o with None => None | Some st1 => spec_tops st1 r end end.

(* ---- small facts ---- *)
Lemma inb_In x l : inb x l = true <-> In x l.
Proof.
  unfold inb. rewrite existsb_exists. split.
  - intros (y & H & E). apply Nat.eqb_eq in E. now subst.
  - intros H. exists x. split; auto. apply Nat.eqb_refl.
Qed.
Lemma inb_nIn x l : inb x l = false <-> ~ In x l.
Proof. rewrite <- inb_In. destruct (inb x l); split; congruence. Qed.
Lemma del_In x y l : In y (del x l) <-> In y l /\ y <> x.
Proof. unfold del. rewrite filter_In, negb_true_iff, Nat.eqb_neq. intuition. Qed.
Lemma del_NoDup x l : NoDup l -> NoDup (del x l).
Proof. apply NoDup_filter. Qed.
Lemma del_length x l : NoDup l -> In x l -> length (del x l) = (length l - 1)%nat.
Proof.
  induction l as [|y l IH]; intros HN Hi; [contradiction|]. inversion HN; subst.
  unfold del. cbn [filter]. destruct (Nat.eqb_spec x y) as [->|Ne]; cbn [negb length].
  - rewrite Nat.sub_succ, Nat.sub_0_r. f_equal. clear - H1.
    induction l as [|z l IH]; auto. cbn [filter]. destruct (Nat.eqb_spec y z) as [->|]; cbn [negb].
    + exfalso; apply H1; now left.
    + f_equal. apply IH. intros H; apply H1; now right.
  - destruct Hi as [->|Hi]; [congruence|]. fold (del x l). rewrite IH by auto.
    destruct l; [contradiction|]. cbn [length]. lia.
Qed.

Lemma ins_map x w l : exists a b, l = a ++ b /\ ins x w l = a ++ (x, w) :: b /\
  Forall (fun p => snd p < w) a /\ match b with [] => True | p :: _ => w <= snd p end.
Proof.
  induction l as [|[y v] l (a & b & -> & E & F & H)]; cbn [ins].
  - exists [], []. repeat split; auto.
  - destruct (v <? w) eqn:Ev.
    + exists ((y, v) :: a), b. rewrite E. repeat split; auto. constructor; auto. cbn. now apply Z.ltb_lt.
    + exists [], ((y, v) :: a ++ b). repeat split; auto. cbn. now apply Z.ltb_ge.
Qed.

(* ---- the invariant ---- *)
Record TInv (s : timers) (st : tspec) : Prop := {
  ti_rep : Rep (tlist s) (map fst (pend st));
  ti_alarm : Forall (fun p => alarm s (fst p) = snd p) (pend st);
  ti_live : forall x, alive s x = true <-> In x (live st);
  ti_livend : NoDup (live st);
  ti_pend : forall x, In x (map fst (pend st)) -> In x (live st);
  ti_run : forall x, running st = Some x -> In x (live st);
  ti_rept : forall x, In x (live st) -> repeating s x = inb x (srep st);
  ti_ids : created s = ids st;
  ti_bound : forall x, In x (live st) -> (x < ids st)%nat;
  ti_srep : forall x, In x (srep st) -> (x < ids st)%nat;
  ti_runrep : forall x, running st = Some x -> In x (map fst (pend st)) -> In x (srep st);
  ti_active : active s = Z.of_nat (length (live st));
  ti_fired : fired s = sfired st;
  ti_repeats : repeats s = srepeats st }.

Lemma due_short clk ms : short_delay ms = true -> due clk ms = Ok (due_at clk ms).
Proof.
  unfold short_delay, due, due_at. rewrite andb_true_iff, !Z.leb_le. intros [H1 H2].
  replace ((- 2 ^ 31 <=? ms * 1000000) && (ms * 1000000 <? 2 ^ 31)) with true; auto.
  symmetry. rewrite andb_true_iff, Z.leb_le, Z.ltb_lt. lia.
Qed.
Lemma due_long clk ms : short_delay ms = false -> due clk ms = UB.
Proof.
  unfold short_delay, due. rewrite andb_false_iff, !Z.leb_gt. intros H.
  destruct ((- 2 ^ 31 <=? ms * 1000000) && (ms * 1000000 <? 2 ^ 31)) eqn:E; auto.
  rewrite andb_true_iff, Z.leb_le, Z.ltb_lt in E. lia.
Qed.

(* the checked scan agrees with find_ge when all queued nodes are live *)
Lemma scan_seg s when l : forall p fuel, seg (tlist s) p l None -> (length l <= fuel)%nat ->
  (forall x, In x l -> alive s x = true) ->
  scan fuel s when (first l None) = find_ge fuel (next (tlist s)) (alarm s) when (first l None).
Proof.
  induction l as [|x l IH]; intros p fuel H L A; cbn [first].
  - destruct fuel; reflexivity.
  - destruct H as (_ & Hn & H). destruct fuel as [|fuel]; [cbn in L; lia|]. cbn [scan find_ge].
    rewrite (A x (or_introl eq_refl)). destruct (alarm s x <? when); auto. rewrite Hn.
    apply (IH (Some x)); auto; [cbn in L; lia|]. intros y Hy; apply A; now right.
Qed.

Lemma lastp_seg s a b p n : seg s p (a ++ b) n -> forall y, first b None = Some y -> prev s y = lastp a p.
Proof.
  intros H y E. apply seg_app in H. destruct H as [_ H]. destruct b as [|z b]; [discriminate|].
  cbn in E. injection E as ->. apply H.
Qed.

Lemma find_unique s key when a b fuel : Rep s (a ++ b) -> (length (a ++ b) <= fuel)%nat ->
  Forall (fun x => key x < when) a -> (forall y, first b None = Some y -> when <= key y) ->
  find_ge fuel (next s) key when (head s) = Ok (first b None).
Proof.
  intros [_ -> _ Hs] L F H. 
  enough (G : forall p fuel, (length (a ++ b) <= fuel)%nat -> seg s p (a ++ b) None ->
     find_ge fuel (next s) key when (first (a ++ b) None) = Ok (first b None)) by (eapply G; eauto).
  clear fuel L Hs. induction a as [|x a IH]; intros p fuel L Hs; cbn [app].
  - destruct b as [|y b]; cbn [first]; [destruct fuel; reflexivity|].
    specialize (H y eq_refl). destruct fuel; cbn [find_ge]; replace (key y <? when) with false; auto; symmetry; now apply Z.ltb_ge.
  - inversion F; subst. cbn [first app] in *. destruct Hs as (_ & Hn & Hs).
    destruct fuel as [|fuel]; [cbn in L; lia|]. cbn [find_ge].
    replace (key x <? when) with true by (symmetry; now apply Z.ltb_lt). rewrite Hn.
    eapply IH; eauto. cbn in L; lia.
Qed.

(* inserting a live node which is not queued *)
Lemma insert_ok s l x clk ms : Rep (tlist s) (map fst l) -> Forall (fun p => alarm s (fst p) = snd p) l ->
  (forall y, In y (map fst l) -> alive s y = true) -> (length l <= created s)%nat -> ~ In x (map fst l) -> short_delay ms = true ->
  exists s', insert s x clk ms = Ok s' /\ Rep (tlist s') (map fst (ins x (due_at clk ms) l)) /\
    Forall (fun p => alarm s' (fst p) = snd p) (ins x (due_at clk ms) l) /\
    repeating s' = repeating s /\ alive s' = alive s /\ created s' = created s /\ active s' = active s + 1 /\
    fired s' = fired s /\ repeats s' = repeats s.
Proof.
  intros R A Al Ln Hx Hs. unfold insert. rewrite due_short by auto. cbn [bind].
  set (w := due_at clk ms) in *.
  destruct (ins_map x w l) as (a & b & -> & E & Fa & Hb).
  rewrite map_app in R, Al, Hx.
  assert (Fa' : Forall (fun y => alarm s y < w) (map fst a)).
  { apply Forall_app in A. destruct A as [A _]. clear - A Fa. induction a as [|p a IH]; cbn; constructor; inversion A; inversion Fa; subst; auto. lia. }
  assert (Hb' : forall y, first (map fst b) None = Some y -> w <= alarm s y).
  { intros y Ey. destruct b as [|p b]; [discriminate|]. cbn in Ey. injection Ey as <-.
    apply Forall_app in A. destruct A as [_ A]. inversion A; subst. lia. }
  pose proof R as [ND Hh Ht Hseg].
  assert (SC : scan (S (created s)) s w (head (tlist s)) = Ok (first (map fst b) None)).
  { rewrite Hh. rewrite (scan_seg s w _ None); auto.
    - rewrite <- Hh. apply (find_unique (tlist s) (alarm s) w (map fst a)); auto.
      rewrite <- map_app, map_length. lia.
    - rewrite <- map_app, map_length. lia. }
  rewrite SC. cbn [bind]. unfold link.
  assert (OK : okp s match first (map fst b) None with Some y => prev (tlist s) y | None => tail (tlist s) end = true).
  { assert (EP : match first (map fst b) None with Some y => prev (tlist s) y | None => tail (tlist s) end = lastp (map fst a) None).
    { destruct (first (map fst b) None) as [y|] eqn:Ef.
      - eapply lastp_seg; eauto.
      - rewrite Ht. destruct b; [|discriminate]. cbn. now rewrite app_nil_r. }
    rewrite EP. unfold okp. destruct (lastp (map fst a) None) eqn:El; auto.
    apply lastp_in in El. destruct El as [El|El]; [|discriminate]. apply Al. apply in_or_app. now left. }
  rewrite OK. eexists. split; [reflexivity|]. cbn [tlist alarm repeating alive created active fired repeats].
  rewrite E, map_app. cbn [map fst]. split; [now apply link_before_rep|]. split; [|repeat split; auto].
  rewrite in_app_iff in Hx.
  apply Forall_app in A. destruct A as [A1 A2]. apply Forall_app. split; [|constructor].
  - rewrite Forall_forall in *. intros p Hp. rewrite upd_other; auto. intros Ep. apply Hx. left. rewrite <- Ep. now apply in_map.
  - cbn. now rewrite upd_same.
  - rewrite Forall_forall in *. intros p Hp. rewrite upd_other; auto. intros Ep. apply Hx. right. rewrite <- Ep. now apply in_map.
Qed.

Lemma ins_In x w l y : In y (map fst (ins x w l)) <-> y = x \/ In y (map fst l).
Proof.
  destruct (ins_map x w l) as (a & b & -> & -> & _). rewrite !map_app, !in_app_iff. cbn. intuition.
Qed.

Lemma pend_length s st : TInv s st -> (length (pend st) <= ids st)%nat.
Proof.
  intros H. rewrite <- (map_length fst). rewrite <- (seq_length (ids st) 0).
  apply NoDup_incl_length; [apply (rep_nodup _ _ (ti_rep _ _ H))|].
  intros x Hx. apply in_seq. pose proof (ti_bound _ _ H x (ti_pend _ _ H x Hx)). lia.
Qed.

Lemma inb_cons x y l : inb x (y :: l) = (Nat.eqb x y || inb x l)%bool.
Proof. reflexivity. Qed.

Lemma act_ok s st a st' : TInv s st -> spec_act st a = Some st' -> exists s', do_act s a = Ok s' /\ TInv s' st'.
Proof.
  intros H. pose proof (pend_length s st H) as PL. pose proof H as [R A L LN P RU RE I B SR RR AC F RP].
  destruct a as [clk ms|x clk ms|x]; cbn [spec_act do_act].
  - destruct (short_delay ms) eqn:Es; [|discriminate]. intros [= <-]. unfold new_timer.
    assert (Fr : ~ In (ids st) (live st)) by (intros Hi; apply B in Hi; lia).
    edestruct (insert_ok {| tlist := tlist s; alarm := alarm s; repeating := upd (repeating s) (created s) false;
      alive := upd (alive s) (created s) true; created := S (created s); active := active s; fired := fired s; repeats := repeats s |}
      (pend st) (created s) clk ms) as (s' & E & R' & A' & E1 & E2 & E3 & E4 & E5 & E6); cbn [tlist alarm alive created]; auto.
    + intros y Hy. unfold upd. destruct (Nat.eqb y (created s)); auto. apply L. auto.
    + lia.
    + rewrite I. intros Hy. auto.
    + cbn [repeating alive created active fired repeats] in *. rewrite I in *. exists s'. split; auto.
      constructor; cbn [pend running srep live ids sfired srepeats]; auto; try congruence.
      * intros x. rewrite E2. unfold upd. destruct (Nat.eqb_spec x (ids st)) as [->|Ne]; cbn [In].
        -- split; auto.
        -- rewrite L. intuition congruence.
      * now constructor.
      * intros x Hx. apply ins_In in Hx. destruct Hx as [->|Hx]; [now left|right; auto].
      * intros x Hx. right. auto.
      * intros x [<-|Hx]; rewrite E1.
        -- rewrite upd_same. symmetry. apply inb_nIn. intros Hi. apply SR in Hi. lia.
        -- rewrite upd_other; auto. intros ->. auto.
      * intros x [<-|Hx]; [lia|]. apply B in Hx. lia.
      * intros x Hx. apply SR in Hx. lia.
      * intros x Hx Hi. apply ins_In in Hi. destruct Hi as [->|Hi]; [|auto]. exfalso. apply Fr. auto.
      * rewrite E4, AC. cbn [length]. lia.
  - destruct (short_delay ms) eqn:Es; [|discriminate]. cbn [andb].
    destruct (runs st x) eqn:Er; [|discriminate]. cbn [andb].
    destruct (inb x (map fst (pend st))) eqn:Ei; [discriminate|]. intros [= <-].
    assert (Hrun : running st = Some x).
    { unfold runs in Er. destruct (running st) as [y|]; [|discriminate]. apply Nat.eqb_eq in Er. now subst. }
    apply inb_nIn in Ei. unfold repeat_timer. replace (alive s x) with true by (symmetry; apply L; auto).
    edestruct (insert_ok {| tlist := tlist s; alarm := alarm s; repeating := upd (repeating s) x true;
      alive := alive s; created := created s; active := active s - 1; fired := fired s; repeats := repeats s ++ [x] |}
      (pend st) x clk ms) as (s' & E & R' & A' & E1 & E2 & E3 & E4 & E5 & E6); cbn [tlist alarm alive created]; auto.
    + intros y Hy. apply L. auto.
    + lia.
    + cbn [repeating alive created active fired repeats] in *. exists s'. split; auto.
      constructor; cbn [pend running srep live ids sfired srepeats]; auto; try congruence.
      * intros y. rewrite E2. auto.
      * intros y Hx. apply ins_In in Hx. destruct Hx as [->|Hx]; auto.
      * intros y Hy. rewrite E1, inb_cons. unfold upd. destruct (Nat.eqb y x); cbn [orb]; auto.
      * intros y [<-|Hx]; auto.
      * intros y Hy Hi. rewrite Hrun in Hy. injection Hy as <-. now left.
      * rewrite E4, AC. lia.
  - destruct (inb x (live st)) eqn:El; [|discriminate]. cbn [andb]. apply inb_In in El.
    destruct (negb _) eqn:En; [|discriminate]. intros [= <-].
    unfold clear_timer. replace (alive s x) with true by (symmetry; apply L; auto).
    eexists. split; [reflexivity|].
    constructor; cbn [pend running srep live ids sfired srepeats tlist alarm repeating alive created active fired repeats]; auto.
    + intros y Hy. unfold upd. destruct (Nat.eqb_spec y x) as [->|Ne].
      * symmetry. apply inb_nIn. rewrite del_In. intuition.
      * rewrite RE by auto. destruct (inb y (srep st)) eqn:E1; symmetry.
        -- apply inb_In. apply del_In. apply inb_In in E1. auto.
        -- apply inb_nIn. rewrite del_In. apply inb_nIn in E1. tauto.
    + intros y Hy. apply del_In in Hy. apply SR, Hy.
    + intros y Hy Hi. apply del_In. split; auto. intros ->.
      unfold runs in En. rewrite Hy, Nat.eqb_refl in En. cbn [andb] in En.
      apply inb_In in Hi. rewrite Hi in En. discriminate.
Qed.

Lemma acts_ok l : forall s st st', TInv s st -> spec_acts st l = Some st' -> exists s', do_acts s l = Ok s' /\ TInv s' st'.
Proof.
  induction l as [|a l IH]; intros s st st' H; cbn [spec_acts do_acts].
  - intros [= <-]. eauto.
  - destruct (spec_act st a) as [st1|] eqn:E; [|discriminate]. intros E2.
    destruct (act_ok s st a st1 H E) as (s1 & -> & H1). cbn [bind]. eauto.
Qed.

Lemma act_running st a st' : spec_act st a = Some st' -> running st' = running st.
Proof.
  destruct a; cbn; intros E;
  repeat match type of E with (if ?b then _ else _) = _ => destruct b; [|discriminate] end; injection E as <-; reflexivity.
Qed.
Lemma acts_running l : forall st st', spec_acts st l = Some st' -> running st' = running st.
Proof.
  induction l as [|a l IH]; intros st st'; cbn; [now intros [= <-]|].
  destruct (spec_act st a) as [st1|] eqn:E; [|discriminate]. intros H. rewrite (IH _ _ H). eapply act_running; eauto.
Qed.

Lemma top_ok s st o st' : TInv s st -> running st = None -> spec_top st o = Some st' ->
  exists s', do_top s o = Ok s' /\ TInv s' st' /\ running st' = None.
Proof.
  intros H HR. destruct o as [a|now acts]; cbn [spec_top do_top].
  - intros E. destruct (act_ok _ _ _ _ H E) as (s' & E' & H'). exists s'. split; [auto|split; [auto|]].
    rewrite (act_running _ _ _ E). auto.
  - pose proof H as [R A L LN P RU RE I B SR RR AC F RP]. unfold iterate. rewrite (rep_head _ _ R).
    destruct (pend st) as [|[t w] r] eqn:Ep; cbn [map first fst].
    + intros [= <-]. eauto.
    + inversion A as [|? ? A1 A2]; subst. cbn [fst snd] in A1. rewrite A1.
      assert (Lt : In t (live st)) by (apply P; cbn; now left).
      replace (alive s t) with true by (symmetry; apply L; auto).
      destruct (w <=? now); [|intros [= <-]; eauto].
      cbn [map fst] in R.
      pose proof R as [ND Hh Ht Hs].
      assert (OK : (okp s (prev (tlist s) t) && okp s (next (tlist s) t))%bool = true).
      { destruct Hs as (-> & -> & _). cbn [okp andb]. destruct r as [|[u v] r]; cbn; auto.
        apply L. apply P. cbn. auto. }
      rewrite OK. clear OK.
      destruct (spec_acts _ acts) as [st2|] eqn:E; [|discriminate]. intros [= <-].
      pose proof (acts_running _ _ _ E) as Er. cbn [running] in Er.
      edestruct (acts_ok acts {| tlist := dequeue (tlist s) t; alarm := alarm s; repeating := repeating s; alive := alive s;
                       created := created s; active := active s; fired := fired s ++ [(t, now)]; repeats := repeats s |})
        as (s2 & E2 & H2); [|exact E|].
      { constructor; cbn [pend running srep live ids sfired srepeats tlist alarm repeating alive created active fired repeats]; auto.
        - exact (dequeue_rep (tlist s) [] t (map fst r) R).
        - intros x Hx. apply P. cbn. now right.
        - intros x [= <-]. auto.
        - intros x [= <-] Hx. inversion ND; contradiction.
        - now rewrite F. }
      rewrite E2. cbn [bind]. clear E2 E.
      pose proof H2 as [R2 A2' L2 LN2 P2 RU2 RE2 I2 B2 SR2 RR2 AC2 F2 RP2].
      assert (Lt2 : In t (live st2)) by auto.
      replace (alive s2 t) with true by (symmetry; apply L2; auto). rewrite RE2 by auto.
      destruct (inb t (srep st2)) eqn:Et.
      * exists s2. split; [auto|split; [|auto]].
        constructor; cbn [pend running srep live ids sfired srepeats]; auto; discriminate.
      * eexists. split; [reflexivity|]. split; auto. apply inb_nIn in Et.
        constructor; cbn [pend running srep live ids sfired srepeats tlist alarm repeating alive created active fired repeats]; auto; try discriminate.
        -- intros x. unfold upd. rewrite del_In. destruct (Nat.eqb_spec x t) as [->|Ne]; [split; [discriminate|tauto]|].
           rewrite L2. tauto.
        -- now apply del_NoDup.
        -- intros x Hx. apply del_In. split; auto. intros ->. apply Et. apply RR2; auto.
        -- intros x Hx. apply del_In in Hx. apply RE2, Hx.
        -- intros x Hx. apply del_In in Hx. apply B2, Hx.
        -- rewrite del_length by auto. rewrite AC2. destruct (live st2); [contradiction|]. cbn [length]. lia.
Qed.

Lemma tops_ok l : forall s st st', TInv s st -> running st = None -> spec_tops st l = Some st' ->
  exists s', do_tops s l = Ok s' /\ TInv s' st' /\ running st' = None.
Proof.
  induction l as [|o l IH]; intros s st st' H HR; cbn [spec_tops do_tops].
  - intros [= <-]. eauto.
  - destruct (spec_top st o) as [st1|] eqn:E; [|discriminate]. intros E2.
    destruct (top_ok s st o st1 H HR E) as (s1 & -> & H1 & HR1). cbn [bind]. eauto.
Qed.

Lemma init_ok nx pv a0 r0 : TInv (timers_init nx pv a0 r0) tspec0.
Proof.
  constructor; cbn [timers_init tspec0 pend running srep live ids sfired srepeats tlist alarm repeating alive created active fired repeats map length];
    auto using empty_rep, NoDup_nil; try contradiction; try discriminate. intros x; split; [discriminate|contradiction].
Qed.

(* ---- facts about the reference ---- *)
Definition sorted (l : list (nat * Z)) : Prop := forall a p b q c, l = a ++ p :: b ++ q :: c -> snd p <= snd q.
Lemma sorted_nil : sorted [].
Proof. intros a p b q c H. destruct a; discriminate. Qed.
Fixpoint ssorted (l : list (nat * Z)) : Prop :=
  match l with [] => True | p :: r => Forall (fun q => snd p <= snd q) r /\ ssorted r end.
Lemma ssorted_sorted l : ssorted l -> sorted l.
Proof.
  intros H a. revert l H. induction a as [|z a IH]; intros l H p b q c ->; cbn [ssorted app] in H; destruct H as [H1 H2].
  - apply Forall_app in H1. destruct H1 as [_ H1]. now inversion H1.
  - eapply IH; eauto.
Qed.
Lemma ssorted_ins x w l : ssorted l -> ssorted (ins x w l).
Proof.
  induction l as [|[y v] l IH]; intros H; cbn [ins]; [cbn; auto|].
  destruct H as [H1 H2]. destruct (v <? w) eqn:E.
  - cbn [ssorted]. split; auto. destruct (ins_map x w l) as (a & b & -> & -> & _).
    apply Forall_app in H1. destruct H1 as [Ha Hb]. apply Forall_app. split; auto. constructor; auto. cbn. apply Z.ltb_lt in E; lia.
  - cbn [ssorted]. repeat split; auto. apply Z.ltb_ge in E. constructor; [cbn; lia|].
    rewrite Forall_forall in *. intros q Hq. specialize (H1 q Hq). cbn in *. lia.
Qed.

(* firings and pending entries balance creations and repeats *)
Record SpecInv (st : tspec) : Prop := {
  sp_sorted : ssorted (pend st);
  sp_bound : forall x, In x (map fst (pend st)) -> (x < ids st)%nat;
  sp_runb : forall x, running st = Some x -> (x < ids st)%nat;
  sp_early : forall t now, In (t, now) (sfired st) -> (t < ids st)%nat;
  sp_repb : forall x, In x (srepeats st) -> (x < ids st)%nat;
  sp_bal : forall x, (x < ids st)%nat ->
    (count_occ Nat.eq_dec (map fst (sfired st)) x + count_occ Nat.eq_dec (map fst (pend st)) x
     = 1 + count_occ Nat.eq_dec (srepeats st) x)%nat }.

Lemma count_ins x w l y : count_occ Nat.eq_dec (map fst (ins x w l)) y =
  (count_occ Nat.eq_dec (map fst l) y + if Nat.eq_dec x y then 1 else 0)%nat.
Proof.
  destruct (ins_map x w l) as (a & b & -> & -> & _). rewrite !map_app, !count_occ_app. cbn [map fst count_occ].
  destruct (Nat.eq_dec x y); lia.
Qed.

Lemma sact_inv st a st' : SpecInv st -> spec_act st a = Some st' -> SpecInv st'.
Proof.
  intros [S B RB E RPB BAL]. destruct a as [clk ms|x clk ms|x]; cbn [spec_act].
  - destruct (short_delay ms); [|discriminate]. intros [= <-].
    constructor; cbn [pend running srep live ids sfired srepeats].
    + now apply ssorted_ins.
    + intros y Hy. apply ins_In in Hy. destruct Hy as [->|Hy]; [lia|]. apply B in Hy. lia.
    + intros y Hy. apply RB in Hy. lia.
    + intros t n Hi. apply E in Hi. lia.
    + intros y Hy. apply RPB in Hy. lia.
    + intros y Hy. rewrite count_ins. destruct (Nat.eq_dec (ids st) y) as [<-|Ne].
      * assert (count_occ Nat.eq_dec (map fst (sfired st)) (ids st) = 0%nat) as ->.
        { apply count_occ_not_In. intros Hi. apply in_map_iff in Hi. destruct Hi as ([t n] & Ht & Hi). cbn in Ht. subst. apply E in Hi. lia. }
        assert (count_occ Nat.eq_dec (map fst (pend st)) (ids st) = 0%nat) as ->.
        { apply count_occ_not_In. intros Hi. apply B in Hi. lia. }
        assert (count_occ Nat.eq_dec (srepeats st) (ids st) = 0%nat) as ->; [|lia].
        apply count_occ_not_In. intros Hi. apply RPB in Hi. lia.
      * specialize (BAL y ltac:(lia)). lia.
  - destruct (short_delay ms && runs st x && negb (inb x (map fst (pend st))))%bool eqn:C; [|discriminate]. intros [= <-].
    apply andb_true_iff in C. destruct C as [C _]. apply andb_true_iff in C. destruct C as [_ C].
    assert (Hx : (x < ids st)%nat).
    { apply RB. unfold runs in C. destruct (running st); [|discriminate]. apply Nat.eqb_eq in C. now subst. }
    constructor; cbn [pend running srep live ids sfired srepeats]; auto.
    + now apply ssorted_ins.
    + intros y Hy. apply ins_In in Hy. destruct Hy as [->|Hy]; auto.
    + intros y Hy. apply in_app_iff in Hy. destruct Hy as [Hy|[<-|[]]]; auto.
    + intros y Hy. rewrite count_ins, count_occ_app. cbn [count_occ]. specialize (BAL y Hy).
      destruct (Nat.eq_dec x y); lia.
  - destruct (_ && _)%bool; [|discriminate]. intros [= <-]. constructor; auto.
Qed.
Lemma sacts_inv l : forall st st', SpecInv st -> spec_acts st l = Some st' -> SpecInv st'.
Proof.
  induction l as [|a l IH]; intros st st' H; cbn; [now intros [= <-]|].
  destruct (spec_act st a) as [st1|] eqn:E; [|discriminate]. intros E2. eapply IH; [|exact E2]. eapply sact_inv; eauto.
Qed.
Lemma stop_inv st o st' : SpecInv st -> running st = None -> spec_top st o = Some st' -> SpecInv st'.
Proof.
  intros H HR. destruct o as [a|now acts]; cbn [spec_top]; [now apply sact_inv|].
  destruct (pend st) as [|[t w] r] eqn:Ep; [now intros [= <-]|].
  destruct (w <=? now); [|now intros [= <-]].
  destruct (spec_acts _ acts) as [st2|] eqn:E; [|discriminate]. intros [= <-].
  assert (H2 : SpecInv st2).
  { eapply sacts_inv; [|exact E]. destruct H as [S B RB F RPB BAL]. rewrite Ep in *. cbn [map fst] in *.
    constructor; cbn [pend running srep live ids sfired srepeats]; auto.
    - apply S.
    - intros x Hx. apply B. now right.
    - intros x [= <-]. apply B. now left.
    - intros u n Hi. apply in_app_iff in Hi. destruct Hi as [Hi|[[= <- <-]|[]]]; [eauto|]. apply B. now left.
    - intros x Hx. specialize (BAL x Hx). rewrite map_app, count_occ_app. cbn [map fst count_occ] in *.
      destruct (Nat.eq_dec t x); lia. }
  destruct H2. constructor; cbn [pend running srep live ids sfired srepeats]; auto; discriminate.
Qed.
Lemma stops_inv l : forall st st', SpecInv st -> running st = None -> spec_tops st l = Some st' -> SpecInv st'.
Proof.
  induction l as [|o l IH]; intros st st' H HR; cbn; [now intros [= <-]|].
  destruct (spec_top st o) as [st1|] eqn:E; [|discriminate]. intros E2.
  eapply IH; [| |exact E2]; [eapply stop_inv; eauto|].
  destruct o as [a|now acts]; cbn in E.
  - rewrite (act_running _ _ _ E). auto.
  - destruct (pend st) as [|[t w] r]; [injection E as <-; auto|]. destruct (w <=? now); [|injection E as <-; auto].
    destruct (spec_acts _ acts); [|discriminate]. injection E as <-. reflexivity.
Qed.
Lemma spec0_inv : SpecInv tspec0.
Proof. constructor; cbn; auto; try contradiction; try discriminate. intros; lia. Qed.

(* ---- what the claims need ---- *)
Lemma timers_refine nx pv a0 r0 ops st : spec_tops tspec0 ops = Some st ->
  exists s, do_tops (timers_init nx pv a0 r0) ops = Ok s /\
    walk (created s) (next (tlist s)) (head (tlist s)) = Ok (map fst (pend st)) /\
    map (alarm s) (map fst (pend st)) = map snd (pend st) /\
    fired s = sfired st /\ active s = Z.of_nat (length (live st)) /\
    (forall x, alive s x = true <-> In x (live st)).
Proof.
  intros E. destruct (tops_ok ops _ _ _ (init_ok nx pv a0 r0) eq_refl E) as (s & Es & H & _).
  exists s. repeat split; auto; try apply H.
  - apply walk_rep; [apply H|]. rewrite map_length, (ti_ids _ _ H). eapply pend_length; eauto.
  - rewrite map_map. apply map_ext_Forall. apply H.
Qed.

Lemma spec_sorted_balanced ops st : spec_tops tspec0 ops = Some st ->
  sorted (pend st) /\ NoDup (map fst (pend st)) /\
  (forall x, (x < ids st)%nat -> (count_occ Nat.eq_dec (map fst (sfired st)) x + count_occ Nat.eq_dec (map fst (pend st)) x
     = 1 + count_occ Nat.eq_dec (srepeats st) x)%nat).
Proof.
  intros E. pose proof (stops_inv ops _ _ spec0_inv eq_refl E) as H.
  destruct (tops_ok ops _ _ _ (init_ok (fun _ => None) (fun _ => None) (fun _ => 0) (fun _ => false)) eq_refl E) as (s & _ & HT & _).
  repeat split; [apply ssorted_sorted, H|apply (rep_nodup _ _ (ti_rep _ _ HT))|apply H].
Qed.

(* one iteration in any state the program can reach by the rules *)
Lemma iteration_fires nx pv a0 r0 ops st now acts st' s s' :
  spec_tops tspec0 ops = Some st -> spec_top st (TIter now acts) = Some st' ->
  do_tops (timers_init nx pv a0 r0) ops = Ok s -> do_top s (TIter now acts) = Ok s' ->
  (fired s' = fired s /\ forall x, In x (map fst (pend st)) -> now < alarm s x) \/
  (exists t, fired s' = fired s ++ [(t, now)] /\ alarm s t <= now /\ In t (map fst (pend st)) /\
     forall x, In x (map fst (pend st)) -> alarm s t <= alarm s x).
Proof.
  intros E1 E2 D1 D2.
  destruct (tops_ok ops _ _ _ (init_ok nx pv a0 r0) eq_refl E1) as (s0 & Es & H & HR). rewrite D1 in Es. injection Es as <-.
  destruct (top_ok s st _ st' H HR E2) as (s1 & Es & H' & _). rewrite D2 in Es. injection Es as <-.
  pose proof (stops_inv ops _ _ spec0_inv eq_refl E1) as SI.
  rewrite (ti_fired _ _ H), (ti_fired _ _ H').
  assert (Al : forall x, In x (map fst (pend st)) -> exists w, In (x, w) (pend st) /\ alarm s x = w).
  { intros x Hx. apply in_map_iff in Hx. destruct Hx as ([y w] & <- & Hi). exists w. split; auto.
    pose proof (ti_alarm _ _ H) as A. rewrite Forall_forall in A. apply (A _ Hi). }
  cbn [spec_top] in E2. destruct (pend st) as [|[t w] r] eqn:Ep.
  - injection E2 as <-. left. split; auto. contradiction.
  - assert (Ht : alarm s t = w).
    { destruct (Al t) as (w' & Hi & E); [cbn; auto|]. pose proof (ti_alarm _ _ H) as A. rewrite Ep in A. now inversion A. }
    assert (Hmin : forall x, In x (map fst ((t, w) :: r)) -> w <= alarm s x).
    { intros x Hx. destruct (Al x Hx) as (w' & Hi & ->). pose proof (sp_sorted _ SI) as S. rewrite Ep in S.
      destruct S as [S _]. destruct Hi as [[= <- <-]|Hi]; [lia|]. rewrite Forall_forall in S. apply (S _ Hi). }
    destruct (w <=? now) eqn:Ew.
    + right. exists t. rewrite Ht. apply Z.leb_le in Ew. repeat split; auto; [|cbn; auto].
      destruct (spec_acts _ acts) as [st2|] eqn:E; [|discriminate]. injection E2 as <-. cbn [sfired].
      assert (G : forall l a b, spec_acts a l = Some b -> sfired b = sfired a).
      { clear. induction l as [|a l IH]; intros x y; cbn; [now intros [= <-]|].
        destruct (spec_act x a) as [z|] eqn:E; [|discriminate]. intros H. rewrite (IH _ _ H). clear H IH.
        destruct a; cbn in E; repeat match type of E with (if ?b then _ else _) = _ => destruct b; [|discriminate] end; injection E as <-; reflexivity. }
      apply G in E. exact E.
    + injection E2 as <-. left. split; auto. intros x Hx. apply Hmin in Hx. apply Z.leb_gt in Ew. lia.
Qed.

(* one-shot timers *)
Lemma one_shot ops st x : spec_tops tspec0 ops = Some st -> ~ In x (srepeats st) -> (x < ids st)%nat ->
  (count_occ Nat.eq_dec (map fst (sfired st)) x <= 1)%nat.
Proof.
  intros E Hn Hx. destruct (spec_sorted_balanced ops st E) as (_ & _ & B). specialize (B x Hx).
  assert (count_occ Nat.eq_dec (srepeats st) x = 0%nat) by now apply count_occ_not_In. lia.
Qed.

(* delays *)
Lemma due_exact clk ms : 0 <= clk < 2 ^ 64 - 2 ^ 31 -> 0 <= ms < 2148 -> due clk ms = Ok (clk + ms * 1000000).
Proof.
  intros H1 H2. rewrite due_short.
  - unfold due_at, wrapu. rewrite Z.mod_small; auto. lia.
  - unfold short_delay. rewrite andb_true_iff, !Z.leb_le. lia.
Qed.
Lemma due_overflow s clk ms : 2148 <= ms -> new_timer s clk ms = UB.
Proof.
  intros H. unfold new_timer, insert. rewrite due_long; auto.
  unfold short_delay. rewrite andb_false_iff, !Z.leb_gt. lia.
Qed.

(* equal due times *)
Lemma ties_newest_first x w l y : ssorted l -> In (y, w) l -> ~ In x (map fst l) ->
  exists a b c, ins x w l = a ++ (x, w) :: b ++ (y, w) :: c.
Proof.
  intros S Hi _. destruct (ins_map x w l) as (a & b & -> & -> & F & _).
  apply in_app_iff in Hi. destruct Hi as [Hi|Hi].
  - rewrite Forall_forall in F. specialize (F _ Hi). cbn in F. lia.
  - destruct (in_split _ _ Hi) as (b1 & b2 & ->). exists a, b1, b2. reflexivity.
Qed.

(* breaking the rules *)
Lemma repeat_then_clear_uaf :
  do_tops (timers_init (fun _ => None) (fun _ => None) (fun _ => 0) (fun _ => false))
    [TAct (TNew 0 1); TIter 1000000 [TRepeat 0%nat 1000000 1; TClear 0%nat]; TIter 2000000 []] = UB.
Proof. vm_compute. reflexivity. Qed.

Lemma repeat_outside_callback_loses :
  match do_tops (timers_init (fun _ => None) (fun _ => None) (fun _ => 0) (fun _ => false))
    [TAct (TNew 0 1); TAct (TNew 0 2); TAct (TNew 0 3); TAct (TRepeat 0%nat 0 5)] with
  | Ok s => walk 4 (next (tlist s)) (head (tlist s)) = Ok [0%nat] /\ active s = 3
  | _ => False
  end.
Proof. vm_compute. auto. Qed.

Lemma forgotten_repeat_leaks :
  match do_tops (timers_init (fun _ => None) (fun _ => None) (fun _ => 0) (fun _ => false))
    [TAct (TNew 0 1); TIter 1000000 [TRepeat 0%nat 1000000 1]; TIter 2000000 []] with
  | Ok s => head (tlist s) = None /\ active s = 1 /\ alive s 0%nat = true
  | _ => False
  end.
Proof. vm_compute. auto. Qed.
