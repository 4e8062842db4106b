From Verif Require Import Base DllModel DllProofs SleepModel.
Local Open Scope Z_scope.

(* ---- reference: a list of sleepers sorted by wake time and a list of ready tasks ---- *)
Record zspec := { asleep : list (nat * Z); ready : list nat; zhalt : nat -> bool; zpart : nat -> option nat }.
Definition inb (x : nat) (l : list nat) : bool := existsb (Nat.eqb x) l.

Fixpoint ins (x : nat) (w : Z) (l : list (nat * Z)) : list (nat * Z) :=
  match l with
  | [] => [(x, w)]
  | (y, v) :: r => if v <? w then (y, v) :: ins x w r else (x, w) :: l
  end.

(* the due or halted prefix leaves the sleep list; halted tasks vanish, the others become ready in
   order, each followed by the task attached to it.  None: an attached task was queued already *)
Fixpoint spec_wake (now : Z) (hl : nat -> bool) (l : list (nat * Z)) (r : list nat) (pa : nat -> option nat)
  : option (list (nat * Z) * list nat * (nat -> option nat)) :=
  match l with
  | [] => Some ([], r, pa)
  | (t, w) :: l' =>
    if (w <=? now) || hl t then
      if hl t then spec_wake now hl l' r pa
      else match pa t with
           | None => spec_wake now hl l' (r ++ [t]) pa
           | Some p => if inb p (map fst l' ++ r ++ [t]) then None
                       else spec_wake now hl l' (r ++ [t; p]) (upd pa p None)
           end
    else Some (l, r, pa)
  end.

Inductive zop := ZSleep (x : nat) (ms now : Z) | ZWake (now : Z) | ZRun | ZReady (x : nat) | ZHalt (x : nat) | ZAttach (x p : nat).
Definition free (z : zspec) (x : nat) : bool := negb (inb x (map fst (asleep z) ++ ready z)).
Definition spec_op (z : zspec) (o : zop) : option zspec :=
  match o with
  | ZSleep x ms now =>
    if free z x && (0 <=? ms) && (ms <? 2 ^ 32) && (0 <=? now) && (now <? 2 ^ 63) then
      Some {| asleep := ins x (now + ms * 1000000) (asleep z); ready := ready z; zhalt := zhalt z; zpart := zpart z |}
    else None
  | ZWake now =>
    match spec_wake now (zhalt z) (asleep z) (ready z) (zpart z) with
    | None => None
    | Some (l, r, pa) => Some {| asleep := l; ready := r; zhalt := zhalt z; zpart := pa |}
    end
  | ZRun => Some {| asleep := asleep z; ready := tl (ready z); zhalt := zhalt z; zpart := zpart z |}
  | ZReady x => if free z x then Some {| asleep := asleep z; ready := ready z ++ [x]; zhalt := zhalt z; zpart := zpart z |} else None
  | ZHalt x => Some {| asleep := asleep z; ready := ready z; zhalt := upd (zhalt z) x true; zpart := zpart z |}
  | ZAttach x p => Some {| asleep := asleep z; ready := ready z; zhalt := zhalt z; zpart := upd (zpart z) x (Some p) |}
  end.
Fixpoint spec_ops (z : zspec) (l : list zop) : option zspec :=
  match l with [] => Some z | o :: r => match spec_op z o with None => None | Some z1 => spec_ops z1 r end end.

(* the model run on the same operations; scan and pass are given as much fuel as there are sleepers *)
Definition do_op (sys : nat -> bool) (fuel : nat) (s : sleepers) (o : zop) : outcome sleepers :=
  match o with
  | ZSleep x ms now => add_timeout fuel sys s x ms now
  | ZWake now => wake fuel sys now s
  | ZRun => Ok (snd (run_next s))
  | ZReady x => Ok (put_run s (enqueue (run_q s) x))
  | ZHalt x => Ok (set_halt s x)
  | ZAttach x p => Ok (set_partner s x p)
  end.
Fixpoint do_ops (sys : nat -> bool) (fuel : nat) (s : sleepers) (l : list zop) : outcome sleepers :=
  match l with [] => Ok s | o :: r => do s1 <- do_op sys fuel s o; do_ops sys fuel s1 r end.

Definition sleep_init (nx pv : nat -> option nat) (al : nat -> Z) (tc : Z) : sleepers :=
  {| sh := None; st := None; rh := None; rt := None; nx := nx; pv := pv; alarm_time := al; halt := fun _ => false;
     partner := fun _ => None; sleep_count := 0; task_count := tc |}.
Definition zspec0 : zspec := {| asleep := []; ready := []; zhalt := fun _ => false; zpart := fun _ => None |}.

(* ---- small facts ---- *)
Lemma inb_nIn x l : inb x l = false <-> ~ In x l.
Proof.
  unfold inb. rewrite <- not_true_iff_false, existsb_exists. split; intros H Hi; apply H.
  - exists x. split; auto. apply Nat.eqb_refl.
  - destruct Hi as (y & Hi & E). apply Nat.eqb_eq in E. now subst.
Qed.
Lemma ins_split x w l : exists a b, l = a ++ b /\ ins x w l = a ++ (x, w) :: b /\
  Forall (fun p => snd p < w) a /\ match b with [] => True | p :: _ => w <= snd p end.
Proof.
  induction l as [|[y v] l (a & b & -> & E & F & H)]; cbn [ins].
  - exists [], []. repeat split; auto.
  - destruct (v <? w) eqn:Ev.
    + exists ((y, v) :: a), b. rewrite E. repeat split; auto. constructor; auto. cbn. now apply Z.ltb_lt.
    + exists [], ((y, v) :: a ++ b). repeat split; auto. cbn. now apply Z.ltb_ge.
Qed.

Definition nonsys (sys : nat -> bool) (l : list (nat * Z)) : Z := Z.of_nat (length (filter (fun p => negb (sys (fst p))) l)).
Lemma nonsys_cons sys p l : nonsys sys (p :: l) = (if sys (fst p) then 0 else 1) + nonsys sys l.
Proof. unfold nonsys. cbn [filter]. destruct (sys (fst p)); cbn [negb length]; lia. Qed.
Lemma nonsys_app sys a b : nonsys sys (a ++ b) = nonsys sys a + nonsys sys b.
Proof. unfold nonsys. rewrite filter_app, app_length. lia. Qed.
Lemma nonsys_nonneg sys l : 0 <= nonsys sys l.
Proof. unfold nonsys. lia. Qed.

Record ZInv (sys : nat -> bool) (tc : Z) (s : sleepers) (z : zspec) : Prop := {
  zi_sleep : Rep (sleep_q s) (map fst (asleep z));
  zi_run : Rep (run_q s) (ready z);
  zi_disj : forall x, In x (map fst (asleep z)) -> ~ In x (ready z);
  zi_alarm : Forall (fun p => alarm_time s (fst p) = snd p) (asleep z);
  zi_halt : forall x, halt s x = zhalt z x;
  zi_part : forall x, partner s x = zpart z x;
  zi_count : sleep_count s = nonsys sys (asleep z);
  zi_tasks : task_count s = tc + (if sleep_count s =? 0 then 0 else 1) }.

(* appending a free task to the run queue *)
Lemma push_run s l r x : Rep (sleep_q s) l -> Rep (run_q s) r -> (forall y, In y l -> ~ In y r) ->
  ~ In x l -> ~ In x r ->
  Rep (sleep_q (put_run s (enqueue (run_q s) x))) l /\ Rep (run_q (put_run s (enqueue (run_q s) x))) (r ++ [x]).
Proof.
  intros HS HR D X1 X2. split.
  - apply rep_frame with (sleep_q s); auto. intros y Hy. cbn. apply (enqueue_frame (run_q s) r x y); auto.
    intros ->. contradiction.
  - pose proof (enqueue_rep _ _ x HR X2) as H. destruct (enqueue (run_q s) x); exact H.
Qed.

(* unlinking the first sleeper *)
Lemma pop_sleep s t l r : Rep (sleep_q s) (t :: l) -> Rep (run_q s) r -> (forall y, In y (t :: l) -> ~ In y r) ->
  Rep (sleep_q (put_sleep s (dequeue (sleep_q s) t))) l /\ Rep (run_q (put_sleep s (dequeue (sleep_q s) t))) r.
Proof.
  intros HS HR D. split.
  - pose proof (dequeue_rep (sleep_q s) [] t l HS) as H. destruct (dequeue (sleep_q s) t); exact H.
  - apply rep_frame with (run_q s); auto. intros y Hy. cbn.
    apply (dequeue_frame (sleep_q s) (t :: l) t y); auto; [now left|]. intros Hi. apply (D y Hi Hy).
Qed.

Lemma find_pos s l a b w fuel : Rep s l -> l = a ++ b -> (length l <= fuel)%nat -> forall key,
  Forall (fun x => key x < w) a -> (forall y, first b None = Some y -> w <= key y) ->
  find_ge fuel (next s) key w (head s) = Ok (first b None).
Proof.
  intros [_ -> _ Hs] -> L key F H.
  enough (G : forall p fuel, (length (a ++ b) <= fuel)%nat -> seg s p (a ++ b) None ->
     find_ge fuel (next s) key w (first (a ++ b) None) = Ok (first b None)) by (eapply G; eauto).
  clear fuel L Hs. induction a as [|x a IH]; intros p fuel L Hs; cbn [app].
  - destruct b as [|y b]; cbn [first]; [destruct fuel; reflexivity|].
    specialize (H y eq_refl). destruct fuel; cbn [find_ge]; replace (key y <? w) with false; auto; symmetry; now apply Z.ltb_ge.
  - inversion F; subst. cbn [first app] in *. destruct Hs as (_ & Hn & Hs).
    destruct fuel as [|fuel]; [cbn in L; lia|]. cbn [find_ge].
    replace (key x <? w) with true by (symmetry; now apply Z.ltb_lt). rewrite Hn.
    eapply IH; eauto. cbn in L; lia.
Qed.

Lemma sleep_ok sys tc s z x ms now z' fuel : ZInv sys tc s z -> (length (asleep z) <= fuel)%nat ->
  spec_op z (ZSleep x ms now) = Some z' -> exists s', add_timeout fuel sys s x ms now = Ok s' /\ ZInv sys tc s' z'.
Proof.
  intros [HS HR D A HH HP C T] L. cbn [spec_op].
  destruct (free z x && (0 <=? ms) && (ms <? 2 ^ 32) && (0 <=? now) && (now <? 2 ^ 63))%bool eqn:G; [|discriminate].
  rewrite !andb_true_iff, !Z.leb_le, !Z.ltb_lt in G. destruct G as ((((G0 & G1) & G2) & G3) & G4).
  intros [= <-]. unfold free in G0. apply negb_true_iff, inb_nIn in G0. rewrite in_app_iff in G0.
  unfold add_timeout.
  replace (wrapu 64 (now + wrapu 64 (ms * 1000000))) with (now + ms * 1000000).
  2:{ unfold wrapu. rewrite (Z.mod_small (ms * 1000000)) by lia. rewrite Z.mod_small; lia. }
  set (w := now + ms * 1000000). destruct (ins_split x w (asleep z)) as (a & b & E & E2 & Fa & Hb).
  assert (SP : find_ge fuel (nx s) (alarm_time s) w (sh s) = Ok (first (map fst b) None)).
  { change (nx s) with (next (sleep_q s)). change (sh s) with (head (sleep_q s)).
    apply (find_pos _ (map fst (asleep z)) (map fst a)); auto.
    - now rewrite E, map_app.
    - now rewrite map_length.
    - rewrite E in A. apply Forall_app in A. destruct A as [A _]. clear - A Fa.
      induction a as [|p a IH]; cbn; constructor; inversion A; inversion Fa; subst; auto. lia.
    - intros y Ey. destruct b as [|p b]; [discriminate|]. cbn in Ey. injection Ey as <-.
      rewrite E in A. apply Forall_app in A. destruct A as [_ A]. inversion A; subst. lia. }
  rewrite SP. cbn [bind].
  assert (Gl : ~ In x (map fst a ++ map fst b)) by (rewrite <- map_app, <- E; tauto).
  assert (HS' : Rep (sleep_q s) (map fst a ++ map fst b)) by (now rewrite <- map_app, <- E).
  pose proof (link_before_rep _ _ _ x HS' Gl) as R1.
  assert (R2 : Rep (run_q (put_sleep s (link_before (sleep_q s) x (first (map fst b) None)))) (ready z)).
  { apply rep_frame with (run_q s); auto. intros y Hy. cbn.
    apply (link_before_frame (sleep_q s) (map fst a) (map fst b) x y); auto.
    - intros ->. tauto.
    - rewrite <- map_app, <- E. intros Hi. apply (D y Hi Hy). }
  eexists. split; [reflexivity|].
  assert (NS : nonsys sys (ins x w (asleep z)) = (if sys x then 0 else 1) + nonsys sys (asleep z)).
  { rewrite E2, E, !nonsys_app, nonsys_cons. cbn [fst]. lia. }
  assert (AL : Forall (fun p => upd (alarm_time s) x w (fst p) = snd p) (ins x w (asleep z))).
  { rewrite E2. rewrite E in A. apply Forall_app in A. destruct A as [A1 A2]. rewrite in_app_iff in Gl.
    apply Forall_app. split; [|constructor].
    - rewrite Forall_forall in *. intros p Hp. rewrite upd_other; auto. intros Ep. apply Gl. left. rewrite <- Ep. now apply in_map.
    - cbn. now rewrite upd_same.
    - rewrite Forall_forall in *. intros p Hp. rewrite upd_other; auto. intros Ep. apply Gl. right. rewrite <- Ep. now apply in_map. }
  assert (MI : map fst (ins x w (asleep z)) = map fst a ++ x :: map fst b) by (rewrite E2, map_app; reflexivity).
  assert (DJ : forall y, In y (map fst (ins x w (asleep z))) -> ~ In y (ready z)).
  { intros y. rewrite MI. rewrite E, map_app in D, G0. intros Hy. apply in_app_iff in Hy. cbn in Hy.
    destruct Hy as [Hy|[<-|Hy]]; [apply D; apply in_app_iff; auto|tauto|apply D; apply in_app_iff; auto]. }
  pose proof (nonsys_nonneg sys (asleep z)) as NN.
  destruct (sys x) eqn:Ex; constructor; cbn [asleep ready zhalt zpart put_counts put_sleep sleep_q run_q
     sh st rh rt nx pv alarm_time halt partner sleep_count task_count] in *; auto.
  - rewrite MI. destruct (link_before _ _ _); exact R1.
  - lia.
  - rewrite MI. destruct (link_before _ _ _); exact R1.
  - lia.
  - rewrite T. destruct (sleep_count s =? 0) eqn:E0; destruct (sleep_count s + 1 =? 0) eqn:E3;
      rewrite ?Z.eqb_eq, ?Z.eqb_neq in *; lia.
Qed.

Lemma wake_ok sys tc now hl l : forall s r pa fuel z' , ZInv sys tc s {| asleep := l; ready := r; zhalt := hl; zpart := pa |} ->
  (length l <= fuel)%nat -> spec_wake now hl l r pa = Some z' ->
  exists s', wake fuel sys now s = Ok s' /\
    ZInv sys tc s' {| asleep := fst (fst z'); ready := snd (fst z'); zhalt := hl; zpart := snd z' |}.
Proof.
  induction l as [|[t w] l IH]; intros s r pa fuel z' H L; cbn [spec_wake].
  - intros [= <-]. exists s. split; auto.
    pose proof (rep_head _ _ (zi_sleep _ _ _ _ H)) as Hh. cbn in Hh. destruct fuel; cbn [wake]; rewrite Hh; auto.
  - pose proof H as [HS HR D A HH HP C T]. cbn [asleep ready zhalt zpart map fst] in *.
    destruct fuel as [|fuel]; [cbn in L; lia|].
    cbn [wake]. pose proof (rep_head _ _ HS) as Hh. cbn [sleep_q head first] in Hh. rewrite Hh.
    inversion A as [|? ? A1 A2]; subst. cbn [fst snd] in A1. rewrite A1, HH.
    destruct ((w <=? now) || hl t) eqn:G; [|intros [= <-]; exists s; split; auto].
    destruct (pop_sleep s t (map fst l) r HS HR D) as [P1 P2].
    pose proof (rep_nodup _ _ HS) as ND. inversion ND as [|? ? Nt Nl]; subst.
    assert (Dt : ~ In t r) by (apply D; now left).
    pose proof (nonsys_nonneg sys l) as NN. rewrite nonsys_cons in C. cbn [fst] in C.
    set (s1 := put_sleep s (dequeue (sleep_q s) t)) in *.
    set (s2 := if sys t then s1 else put_counts s1 (sleep_count s1 - 1)
                 (if sleep_count s1 - 1 =? 0 then task_count s1 - 1 else task_count s1)).
    assert (I2 : ZInv sys tc s2 {| asleep := l; ready := r; zhalt := hl; zpart := pa |}).
    { subst s2. destruct (sys t); constructor; cbn [asleep ready zhalt zpart]; auto;
        try (intros y Hy; apply D; now right).
      - cbn. lia.
      - cbn. rewrite T. destruct (sleep_count s =? 0) eqn:E0; destruct (sleep_count s - 1 =? 0) eqn:E3;
          rewrite ?Z.eqb_eq, ?Z.eqb_neq in *; lia. }
    clearbody s2. clear s1 P1 P2.
    rewrite (zi_halt _ _ _ _ I2). cbn [zhalt].
    destruct (hl t) eqn:Ht.
    + intros E. apply (IH _ _ _ _ _ I2); [cbn in L; lia|auto].
    + pose proof I2 as [HS2 HR2 D2 A2' HH2 HP2 C2 T2]. cbn [asleep ready zhalt zpart] in *.
      destruct (push_run s2 (map fst l) r t HS2 HR2 D2 Nt Dt) as [Q1 Q2].
      set (s3 := put_run s2 (enqueue (run_q s2) t)) in *.
      assert (I3 : ZInv sys tc s3 {| asleep := l; ready := r ++ [t]; zhalt := hl; zpart := pa |}).
      { constructor; cbn [asleep ready zhalt zpart]; auto. intros y Hy Hi. apply in_app_iff in Hi.
        destruct Hi as [Hi|[<-|[]]]; [now apply (D2 y)|contradiction]. }
      replace (partner s3 t) with (pa t) by (symmetry; apply HP2).
      clearbody s3. clear Q1 Q2 D2 A2' HH2 HP2 C2 T2 HS2 HR2 I2.
      destruct (pa t) as [p|] eqn:Ep.
      * destruct (inb p (map fst l ++ r ++ [t])) eqn:Eb; [discriminate|]. intros E.
        apply inb_nIn in Eb. rewrite in_app_iff in Eb.
        pose proof I3 as [HS3 HR3 D3 A3 HH3 HP3 C3 T3]. cbn [asleep ready zhalt zpart] in *.
        match goal with |- context [wake fuel sys now ?s4] => set (s4' := s4) end.
        enough (I4 : ZInv sys tc s4' {| asleep := l; ready := r ++ [t; p]; zhalt := hl; zpart := upd pa p None |})
          by (apply (IH _ _ _ _ _ I4); [cbn in L; lia|auto]).
        subst s4'.
        destruct (push_run s3 (map fst l) (r ++ [t]) p HS3 HR3 D3) as [Q1 Q2]; [tauto|tauto|].
        rewrite <- app_assoc in Q2.
        constructor; cbn [asleep ready zhalt zpart]; auto.
        -- intros y Hy Hi. change [t; p] with ([t] ++ [p]) in Hi. rewrite (app_assoc r [t] [p]) in Hi. apply in_app_iff in Hi. destruct Hi as [Hi|[<-|[]]]; [now apply (D3 y)|tauto].
        -- intros x. cbn. unfold upd. destruct (Nat.eqb x p); auto.
      * intros E. apply (IH _ _ _ _ _ I3); [cbn in L; lia|auto].
Qed.

Lemma op_ok sys tc s z o z' fuel : ZInv sys tc s z -> (length (asleep z) <= fuel)%nat -> spec_op z o = Some z' ->
  exists s', do_op sys fuel s o = Ok s' /\ ZInv sys tc s' z'.
Proof.
  intros H L. destruct o as [x ms now|now| |x|x|x p]; cbn [do_op].
  - now apply sleep_ok.
  - cbn [spec_op]. destruct (spec_wake _ _ _ _ _) as [[[l r] pa]|] eqn:E; [|discriminate]. intros [= <-].
    destruct z as [l0 r0 h0 p0]. cbn [asleep ready zhalt zpart] in *.
    apply (wake_ok sys tc now h0 l0 s r0 p0 fuel _ H L E).
  - cbn [spec_op]. intros [= <-]. eexists. split; [reflexivity|].
    destruct H as [HS HR D A HH HP C T]. unfold run_next.
    destruct (task_dequeue_rep _ _ HR) as [E R]. unfold task_dequeue in *.
    pose proof (rep_head _ _ HR) as Hh. rewrite Hh in *.
    destruct (ready z) as [|x r] eqn:Er; cbn [first fst snd tl] in *.
    + constructor; cbn [asleep ready zhalt zpart]; auto.
    + constructor; cbn [asleep ready zhalt zpart]; auto.
      * apply rep_frame with (sleep_q s); auto. intros y Hy. cbn.
        apply (dequeue_frame (run_q s) (x :: r) x y); auto; now left.
      * destruct (dequeue (run_q s) x); exact R.
      * intros y Hy Hi. apply (D y Hy). now right.
  - cbn [spec_op]. destruct (free z x) eqn:Ef; [|discriminate]. intros [= <-]. eexists. split; [reflexivity|].
    unfold free in Ef. apply negb_true_iff, inb_nIn in Ef. rewrite in_app_iff in Ef.
    destruct H as [HS HR D A HH HP C T].
    destruct (push_run s _ _ x HS HR D) as [Q1 Q2]; [tauto|tauto|].
    constructor; cbn [asleep ready zhalt zpart]; auto.
    intros y Hy Hi. apply in_app_iff in Hi. destruct Hi as [Hi|[<-|[]]]; [now apply (D y)|tauto].
  - cbn [spec_op]. intros [= <-]. eexists. split; [reflexivity|]. destruct H. constructor; cbn; auto.
    intros y. unfold upd. destruct (Nat.eqb y x); auto.
  - cbn [spec_op]. intros [= <-]. eexists. split; [reflexivity|]. destruct H. constructor; cbn; auto.
    intros y. unfold upd. destruct (Nat.eqb y x); auto.
Qed.

(* the number of sleepers never exceeds the number of operations *)
Lemma ins_length x w l : length (ins x w l) = S (length l).
Proof. destruct (ins_split x w l) as (a & b & -> & -> & _). rewrite !app_length. cbn. lia. Qed.
Lemma wake_length now hl l : forall r pa z', spec_wake now hl l r pa = Some z' -> (length (fst (fst z')) <= length l)%nat.
Proof.
  induction l as [|[t w] l IH]; intros r pa z'; cbn [spec_wake]; [intros [= <-]; auto|].
  destruct (_ || _); [|intros [= <-]; auto]. destruct (hl t); [intros E; apply IH in E; cbn; lia|].
  destruct (pa t); [destruct (inb _ _); [discriminate|]|]; intros E; apply IH in E; cbn; lia.
Qed.
Lemma op_length z o z' : spec_op z o = Some z' -> (length (asleep z') <= S (length (asleep z)))%nat.
Proof.
  destruct o; cbn [spec_op].
  - destruct (_ && _)%bool; [|discriminate]. intros [= <-]. cbn. rewrite ins_length. lia.
  - destruct (spec_wake _ _ _ _ _) as [[[l r] pa]|] eqn:E; [|discriminate]. intros [= <-]. apply wake_length in E. cbn in *. lia.
  - intros [= <-]. cbn. lia.
  - destruct (free z x); [|discriminate]. intros [= <-]. cbn. lia.
  - intros [= <-]. cbn. lia.
  - intros [= <-]. cbn. lia.
Qed.

Lemma ops_ok sys tc fuel ops : forall s z z', ZInv sys tc s z -> (length (asleep z) + length ops <= fuel)%nat ->
  spec_ops z ops = Some z' -> exists s', do_ops sys fuel s ops = Ok s' /\ ZInv sys tc s' z'.
Proof.
  induction ops as [|o ops IH]; intros s z z' H L; cbn [spec_ops do_ops].
  - intros [= <-]. eauto.
  - destruct (spec_op z o) as [z1|] eqn:E; [|discriminate]. intros E2. cbn [length] in L.
    destruct (op_ok sys tc s z o z1 fuel H ltac:(lia) E) as (s1 & -> & H1). cbn [bind].
    apply (IH s1 z1 z' H1); auto. pose proof (op_length _ _ _ E). lia.
Qed.

Lemma sleep_init_inv sys nx pv al tc : ZInv sys tc (sleep_init nx pv al tc) zspec0.
Proof. constructor; cbn; auto; try apply empty_rep. lia. Qed.

(* ---- what the claims need ---- *)
Lemma sleep_refines sys nx pv al tc ops z : spec_ops zspec0 ops = Some z ->
  exists s, do_ops sys (length ops) (sleep_init nx pv al tc) ops = Ok s /\
    walk (length (asleep z)) (next (sleep_q s)) (head (sleep_q s)) = Ok (map fst (asleep z)) /\
    walk (length (ready z)) (next (run_q s)) (head (run_q s)) = Ok (ready z) /\
    sleep_count s = Z.of_nat (length (filter (fun p => negb (sys (fst p))) (asleep z))) /\
    task_count s = tc + (if sleep_count s =? 0 then 0 else 1).
Proof.
  intros E. destruct (ops_ok sys tc (length ops) ops _ _ _ (sleep_init_inv sys nx pv al tc) (Nat.le_refl _) E) as (s & Es & H).
  exists s. split; auto. destruct H. repeat split; auto.
  - apply walk_rep; auto. now rewrite map_length.
  - apply walk_rep; auto.
Qed.

Fixpoint ssorted (l : list (nat * Z)) : Prop :=
  match l with [] => True | p :: r => Forall (fun q => snd p <= snd q) r /\ ssorted r end.
Lemma ssorted_ins x w l : ssorted l -> ssorted (ins x w l).
Proof.
  induction l as [|[y v] l IH]; intros H; cbn [ins]; [cbn; auto|].
  destruct H as [H1 H2]. destruct (v <? w) eqn:E.
  - cbn [ssorted]. split; auto. destruct (ins_split x w l) as (a & b & -> & -> & _).
    apply Forall_app in H1. destruct H1 as [Ha Hb]. apply Forall_app. split; auto. constructor; auto. cbn. apply Z.ltb_lt in E; lia.
  - cbn [ssorted]. repeat split; auto. apply Z.ltb_ge in E. constructor; [cbn; lia|].
    rewrite Forall_forall in *. intros q Hq. specialize (H1 q Hq). cbn in *. lia.
Qed.

(* the tasks a pass makes ready: for the sleepers [l], with the tasks attached to them *)
Definition woken (hl : nat -> bool) (l : list (nat * Z)) : list (nat * Z) := filter (fun p => negb (hl (fst p))) l.

Lemma spec_wake_split now hl l : forall r pa z', spec_wake now hl l r pa = Some z' ->
  exists gone, l = gone ++ fst (fst z') /\
    Forall (fun p => snd p <= now \/ hl (fst p) = true) gone /\
    match fst (fst z') with [] => True | p :: _ => now < snd p /\ hl (fst p) = false end /\
    exists extra, snd (fst z') = r ++ extra /\
      (* the woken sleepers appear in this order, all else that became ready was attached *)
      ((forall x, pa x = None) -> extra = map fst (woken hl gone)) /\
      Forall (fun p => snd p <= now /\ In (fst p) extra) (woken hl gone).
Proof.
  induction l as [|[t w] l IH]; intros r pa z'; cbn [spec_wake].
  - intros [= <-]. exists []. cbn. repeat split; auto. exists []. rewrite app_nil_r. repeat split; auto.
  - destruct ((w <=? now) || hl t) eqn:G.
    + destruct (hl t) eqn:Ht.
      * intros E. destruct (IH _ _ _ E) as (gone & -> & F & N & ex & E2 & E3 & E4).
        exists ((t, w) :: gone). repeat split; auto.
        exists ex. unfold woken. cbn [filter fst]. rewrite Ht. cbn [negb]. auto.
      * rewrite orb_false_r in G. apply Z.leb_le in G.
        assert (K : forall pa1 z1 q, spec_wake now hl l (r ++ t :: q) pa1 = Some z1 ->
           ((forall x, pa x = None) -> q = [] /\ forall x, pa1 x = None) ->
           exists gone, (t, w) :: l = gone ++ fst (fst z1) /\
            Forall (fun p => snd p <= now \/ hl (fst p) = true) gone /\
            match fst (fst z1) with [] => True | p :: _ => now < snd p /\ hl (fst p) = false end /\
            exists extra, snd (fst z1) = r ++ extra /\
              ((forall x, pa x = None) -> extra = map fst (woken hl gone)) /\
              Forall (fun p => snd p <= now /\ In (fst p) extra) (woken hl gone)).
        { intros pa1 z1 q E Q. destruct (IH _ _ _ E) as (gone & -> & F & N & ex & E2 & E3 & E4).
          exists ((t, w) :: gone). repeat split; auto.
          exists (t :: q ++ ex). unfold woken. cbn [filter fst]. rewrite Ht. cbn [negb]. repeat split.
          - rewrite E2, <- app_assoc. reflexivity.
          - intros H. destruct (Q H) as [-> Hp]. cbn [app map fst]. f_equal. auto.
          - constructor; [split; [auto|now left]|]. rewrite Forall_forall in *. intros p Hp. destruct (E4 p Hp). split; auto.
            right. apply in_app_iff. auto. }
        destruct (pa t) as [p|] eqn:Ep.
        -- destruct (inb _ _); [discriminate|]. intros E. eapply (K (upd pa p None) _ [p]); eauto.
           intros H. rewrite H in Ep. discriminate.
        -- intros E. eapply (K pa _ []); eauto.
    + intros [= <-]. exists []. cbn [fst snd app]. apply orb_false_iff in G. destruct G as [G1 G2]. apply Z.leb_gt in G1.
      repeat split; auto. exists []. rewrite app_nil_r. repeat split; auto. constructor.
Qed.

Lemma wake_sorted now hl l r pa z' : ssorted l -> spec_wake now hl l r pa = Some z' -> ssorted (fst (fst z')).
Proof.
  intros S E. destruct (spec_wake_split _ _ _ _ _ _ E) as (g & -> & _). clear E.
  induction g as [|p g IH]; auto. apply IH. apply S.
Qed.
Lemma ops_sorted ops : forall z z', ssorted (asleep z) -> spec_ops z ops = Some z' -> ssorted (asleep z').
Proof.
  induction ops as [|o ops IH]; intros z z' S; cbn [spec_ops]; [now intros [= <-]|].
  destruct (spec_op z o) as [z1|] eqn:E; [|discriminate]. apply IH.
  destruct o; cbn [spec_op] in E.
  - destruct (_ && _)%bool; [|discriminate]. injection E as <-. now apply ssorted_ins.
  - destruct (spec_wake _ _ _ _ _) as [[[l r] pa]|] eqn:E1; [|discriminate]. injection E as <-. apply (wake_sorted _ _ _ _ _ _ S E1).
  - injection E as <-; auto.
  - destruct (free z x); [|discriminate]. injection E as <-; auto.
  - injection E as <-; auto.
  - injection E as <-; auto.
Qed.

Lemma pass_exact ops z now z' : spec_ops zspec0 ops = Some z -> spec_op z (ZWake now) = Some z' ->
  exists gone extra, asleep z = gone ++ asleep z' /\ ready z' = ready z ++ extra /\
    ((forall x, zpart z x = None) -> extra = map fst (filter (fun p => negb (zhalt z (fst p))) gone)) /\
    Forall (fun p => snd p <= now \/ zhalt z (fst p) = true) gone /\
    Forall (fun p => zhalt z (fst p) = false -> snd p <= now /\ In (fst p) extra) gone /\
    Forall (fun p => now < snd p) (asleep z').
Proof.
  intros E1 E2. pose proof (ops_sorted ops zspec0 z I E1) as S. cbn [spec_op] in E2.
  destruct (spec_wake _ _ _ _ _) as [[[l r] pa]|] eqn:E; [|discriminate]. injection E2 as <-.
  destruct (spec_wake_split _ _ _ _ _ _ E) as (g & G & F & N & ex & E3 & E4 & E5). cbn [fst snd] in *.
  exists g, ex. cbn [asleep ready]. split; [auto|]. split; [auto|]. split; [exact E4|]. split; [auto|]. split.
  - rewrite Forall_forall in *. intros p Hp Hh. apply E5. unfold woken. apply filter_In. split; auto. now rewrite Hh.
  - rewrite G in S. clear - S N. destruct l as [|p l]; constructor.
    + apply N.
    + assert (S2 : ssorted (p :: l)). { clear N. induction g as [|q g IH]; auto. apply IH. apply S. }
      destruct S2 as [S2 _]. rewrite Forall_forall in *. intros q Hq. specialize (S2 q Hq). destruct N. lia.
Qed.

Lemma asleep_sorted ops z : spec_ops zspec0 ops = Some z -> ssorted (asleep z).
Proof. apply ops_sorted. exact I. Qed.

(* ---- delay's result ---- *)
Lemma delay_short start stop : 0 <= start -> start <= stop < 2 ^ 64 -> stop - start < 2 ^ 32 ->
  delay_result start stop = (stop - start) / 1000000.
Proof.
  intros H1 H2 H3. unfold delay_result, wrapu. rewrite (Z.mod_small (stop - start)) by lia. rewrite Z.mod_small by lia. auto.
Qed.
Lemma delay_long start stop : 0 <= start -> start <= stop < 2 ^ 64 -> 4295000000 <= stop - start ->
  delay_result start stop < 4295 /\ 4295 <= (stop - start) / 1000000.
Proof.
  intros H1 H2 H3. unfold delay_result, wrapu. split.
  - apply Z.div_lt_upper_bound; [lia|]. pose proof (Z.mod_pos_bound ((stop - start) mod 2 ^ 64) (2 ^ 32) ltac:(lia)). lia.
  - apply Z.div_le_lower_bound; lia.
Qed.

(* ---- the attached task stays attached ---- *)
(* task 1 attaches to sleeping task 0 and is made ready once; it runs, and is waiting for something
   else when task 0 sleeps a second time: it is made ready again although it no longer waits for 0 *)
Definition stale_ops := [ZSleep 0%nat 1 0; ZAttach 0%nat 1%nat; ZWake 1000000; ZRun; ZRun; ZSleep 0%nat 1 1000000; ZWake 2000000].
Lemma attached_woken_again :
  exists s, do_ops (fun _ => false) 7 (sleep_init (fun _ => None) (fun _ => None) (fun _ => 0) 0) stale_ops = Ok s /\
    walk 2 (nx s) (rh s) = Ok [0; 1]%nat.
Proof. eexists. split; vm_compute; reflexivity. Qed.
(* and when task 1 is itself asleep at that time, its sleep entry is destroyed: it is both asleep
   and ready, and the task that slept after it is lost *)
Definition stale_ops2 := [ZSleep 0%nat 1 0; ZAttach 0%nat 1%nat; ZWake 1000000; ZRun; ZRun; ZSleep 0%nat 1 1000000;
  ZSleep 1%nat 5 1000000; ZSleep 2%nat 9 1000000; ZWake 2000000].
Lemma attached_corrupts :
  exists s, do_ops (fun _ => false) 9 (sleep_init (fun _ => None) (fun _ => None) (fun _ => 0) 0) stale_ops2 = Ok s /\
    walk 3 (nx s) (rh s) = Ok [0; 1]%nat /\ walk 3 (nx s) (sh s) = Ok [1]%nat /\ sleep_count s = 2.
Proof. eexists. split; [vm_compute; reflexivity|]. split; [vm_compute; reflexivity|]. split; vm_compute; reflexivity. Qed.
